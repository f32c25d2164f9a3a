(** Tables of __init__.py 1727-2031 and 2116-2150, generated from their text by
    tools/gen_fontinfo_tables.py.  The "type" entry of an attribute is only
    consulted for attributes without a valueValidator (lines 1925-1933), so an
    attribute is mapped to its validator. *)
From Coq Require Import String NArith ZArith Bool Lia List.
From Verif Require Import Base PyVal PyText Validators.
Import ListNotations.
Local Open Scope string_scope.
Local Open Scope list_scope.

(** __init__.py 1727 *)
Definition fontInfoOpenTypeHeadFlagsOptions : list Z := map Z.of_nat (seq 0 15).
(** __init__.py 1728 *)
Definition fontInfoOpenTypeOS2SelectionOptions : list Z := [1; 2; 3; 4; 7; 8; 9]%Z.
(** __init__.py 1729 *)
Definition fontInfoOpenTypeOS2UnicodeRangesOptions : list Z := map Z.of_nat (seq 0 128).
(** __init__.py 1730 *)
Definition fontInfoOpenTypeOS2CodePageRangesOptions : list Z := map Z.of_nat (seq 0 64).
(** __init__.py 1731 *)
Definition fontInfoOpenTypeOS2TypeOptions : list Z := [0; 1; 2; 3; 8; 9]%Z.
(** __init__.py 1738-1779 *)
Definition fontInfoAttributesVersion1 : list str := map u ["familyName"; "styleName"; "fullName"; "fontName"; "menuName"; "fontStyle"; "note"; "versionMajor"; "versionMinor"; "year"; "copyright"; "notice"; "trademark"; "license"; "licenseURL"; "createdBy"; "designer"; "designerURL"; "vendorURL"; "unitsPerEm"; "ascender"; "descender"; "capHeight"; "xHeight"; "defaultWidth"; "slantAngle"; "italicAngle"; "widthName"; "weightName"; "weightValue"; "fondName"; "otFamilyName"; "otStyleName"; "otMacName"; "msCharSet"; "fondID"; "uniqueID"; "ttVendor"; "ttUniqueID"; "ttVersion"].

Section WithText.
Variable T : pytext.
(** __init__.py 1781-1876 *)
Definition fontInfoAttributesVersion2ValueData : list (str * (pyval -> res bool)) :=
  [ (u "familyName", fun v => Ok (genericTypeValidator v TStr));
    (u "styleName", fun v => Ok (genericTypeValidator v TStr));
    (u "styleMapFamilyName", fun v => Ok (genericTypeValidator v TStr));
    (u "styleMapStyleName", fun v => Ok (fontInfoStyleMapStyleNameValidator v));
    (u "versionMajor", fun v => Ok (genericTypeValidator v TInt));
    (u "versionMinor", fun v => Ok (genericTypeValidator v TInt));
    (u "year", fun v => Ok (genericTypeValidator v TInt));
    (u "copyright", fun v => Ok (genericTypeValidator v TStr));
    (u "trademark", fun v => Ok (genericTypeValidator v TStr));
    (u "unitsPerEm", fun v => Ok (genericTypeValidator v TNumber));
    (u "descender", fun v => Ok (genericTypeValidator v TNumber));
    (u "xHeight", fun v => Ok (genericTypeValidator v TNumber));
    (u "capHeight", fun v => Ok (genericTypeValidator v TNumber));
    (u "ascender", fun v => Ok (genericTypeValidator v TNumber));
    (u "italicAngle", fun v => Ok (genericTypeValidator v TNumber));
    (u "note", fun v => Ok (genericTypeValidator v TStr));
    (u "openTypeHeadCreated", fun v => Ok (fontInfoOpenTypeHeadCreatedValidator T v));
    (u "openTypeHeadLowestRecPPEM", fun v => Ok (genericTypeValidator v TNumber));
    (u "openTypeHeadFlags", fun v => genericIntListValidator v fontInfoOpenTypeHeadFlagsOptions);
    (u "openTypeHheaAscender", fun v => Ok (genericTypeValidator v TNumber));
    (u "openTypeHheaDescender", fun v => Ok (genericTypeValidator v TNumber));
    (u "openTypeHheaLineGap", fun v => Ok (genericTypeValidator v TNumber));
    (u "openTypeHheaCaretSlopeRise", fun v => Ok (genericTypeValidator v TInt));
    (u "openTypeHheaCaretSlopeRun", fun v => Ok (genericTypeValidator v TInt));
    (u "openTypeHheaCaretOffset", fun v => Ok (genericTypeValidator v TNumber));
    (u "openTypeNameDesigner", fun v => Ok (genericTypeValidator v TStr));
    (u "openTypeNameDesignerURL", fun v => Ok (genericTypeValidator v TStr));
    (u "openTypeNameManufacturer", fun v => Ok (genericTypeValidator v TStr));
    (u "openTypeNameManufacturerURL", fun v => Ok (genericTypeValidator v TStr));
    (u "openTypeNameLicense", fun v => Ok (genericTypeValidator v TStr));
    (u "openTypeNameLicenseURL", fun v => Ok (genericTypeValidator v TStr));
    (u "openTypeNameVersion", fun v => Ok (genericTypeValidator v TStr));
    (u "openTypeNameUniqueID", fun v => Ok (genericTypeValidator v TStr));
    (u "openTypeNameDescription", fun v => Ok (genericTypeValidator v TStr));
    (u "openTypeNamePreferredFamilyName", fun v => Ok (genericTypeValidator v TStr));
    (u "openTypeNamePreferredSubfamilyName", fun v => Ok (genericTypeValidator v TStr));
    (u "openTypeNameCompatibleFullName", fun v => Ok (genericTypeValidator v TStr));
    (u "openTypeNameSampleText", fun v => Ok (genericTypeValidator v TStr));
    (u "openTypeNameWWSFamilyName", fun v => Ok (genericTypeValidator v TStr));
    (u "openTypeNameWWSSubfamilyName", fun v => Ok (genericTypeValidator v TStr));
    (u "openTypeOS2WidthClass", fun v => Ok (fontInfoOpenTypeOS2WidthClassValidator v));
    (u "openTypeOS2WeightClass", fun v => Ok (fontInfoOpenTypeOS2WeightClassValidator v));
    (u "openTypeOS2Selection", fun v => genericIntListValidator v fontInfoOpenTypeOS2SelectionOptions);
    (u "openTypeOS2VendorID", fun v => Ok (genericTypeValidator v TStr));
    (u "openTypeOS2Panose", fun v => Ok (fontInfoVersion2OpenTypeOS2PanoseValidator v));
    (u "openTypeOS2FamilyClass", fun v => Ok (fontInfoOpenTypeOS2FamilyClassValidator v));
    (u "openTypeOS2UnicodeRanges", fun v => genericIntListValidator v fontInfoOpenTypeOS2UnicodeRangesOptions);
    (u "openTypeOS2CodePageRanges", fun v => genericIntListValidator v fontInfoOpenTypeOS2CodePageRangesOptions);
    (u "openTypeOS2TypoAscender", fun v => Ok (genericTypeValidator v TNumber));
    (u "openTypeOS2TypoDescender", fun v => Ok (genericTypeValidator v TNumber));
    (u "openTypeOS2TypoLineGap", fun v => Ok (genericTypeValidator v TNumber));
    (u "openTypeOS2WinAscent", fun v => Ok (genericTypeValidator v TNumber));
    (u "openTypeOS2WinDescent", fun v => Ok (genericTypeValidator v TNumber));
    (u "openTypeOS2Type", fun v => genericIntListValidator v fontInfoOpenTypeOS2TypeOptions);
    (u "openTypeOS2SubscriptXSize", fun v => Ok (genericTypeValidator v TNumber));
    (u "openTypeOS2SubscriptYSize", fun v => Ok (genericTypeValidator v TNumber));
    (u "openTypeOS2SubscriptXOffset", fun v => Ok (genericTypeValidator v TNumber));
    (u "openTypeOS2SubscriptYOffset", fun v => Ok (genericTypeValidator v TNumber));
    (u "openTypeOS2SuperscriptXSize", fun v => Ok (genericTypeValidator v TNumber));
    (u "openTypeOS2SuperscriptYSize", fun v => Ok (genericTypeValidator v TNumber));
    (u "openTypeOS2SuperscriptXOffset", fun v => Ok (genericTypeValidator v TNumber));
    (u "openTypeOS2SuperscriptYOffset", fun v => Ok (genericTypeValidator v TNumber));
    (u "openTypeOS2StrikeoutSize", fun v => Ok (genericTypeValidator v TNumber));
    (u "openTypeOS2StrikeoutPosition", fun v => Ok (genericTypeValidator v TNumber));
    (u "openTypeVheaVertTypoAscender", fun v => Ok (genericTypeValidator v TNumber));
    (u "openTypeVheaVertTypoDescender", fun v => Ok (genericTypeValidator v TNumber));
    (u "openTypeVheaVertTypoLineGap", fun v => Ok (genericTypeValidator v TNumber));
    (u "openTypeVheaCaretSlopeRise", fun v => Ok (genericTypeValidator v TInt));
    (u "openTypeVheaCaretSlopeRun", fun v => Ok (genericTypeValidator v TInt));
    (u "openTypeVheaCaretOffset", fun v => Ok (genericTypeValidator v TNumber));
    (u "postscriptFontName", fun v => Ok (genericTypeValidator v TStr));
    (u "postscriptFullName", fun v => Ok (genericTypeValidator v TStr));
    (u "postscriptSlantAngle", fun v => Ok (genericTypeValidator v TNumber));
    (u "postscriptUniqueID", fun v => Ok (genericTypeValidator v TInt));
    (u "postscriptUnderlineThickness", fun v => Ok (genericTypeValidator v TNumber));
    (u "postscriptUnderlinePosition", fun v => Ok (genericTypeValidator v TNumber));
    (u "postscriptIsFixedPitch", fun v => Ok (genericTypeValidator v TBool));
    (u "postscriptBlueValues", fun v => Ok (fontInfoPostscriptBluesValidator v));
    (u "postscriptOtherBlues", fun v => Ok (fontInfoPostscriptOtherBluesValidator v));
    (u "postscriptFamilyBlues", fun v => Ok (fontInfoPostscriptBluesValidator v));
    (u "postscriptFamilyOtherBlues", fun v => Ok (fontInfoPostscriptOtherBluesValidator v));
    (u "postscriptStemSnapH", fun v => Ok (fontInfoPostscriptStemsValidator v));
    (u "postscriptStemSnapV", fun v => Ok (fontInfoPostscriptStemsValidator v));
    (u "postscriptBlueFuzz", fun v => Ok (genericTypeValidator v TNumber));
    (u "postscriptBlueShift", fun v => Ok (genericTypeValidator v TNumber));
    (u "postscriptBlueScale", fun v => Ok (genericTypeValidator v TNumber));
    (u "postscriptForceBold", fun v => Ok (genericTypeValidator v TBool));
    (u "postscriptDefaultWidthX", fun v => Ok (genericTypeValidator v TNumber));
    (u "postscriptNominalWidthX", fun v => Ok (genericTypeValidator v TNumber));
    (u "postscriptWeightName", fun v => Ok (genericTypeValidator v TStr));
    (u "postscriptDefaultCharacter", fun v => Ok (genericTypeValidator v TStr));
    (u "postscriptWindowsCharacterSet", fun v => Ok (fontInfoPostscriptWindowsCharacterSetValidator v));
    (u "macintoshFONDFamilyID", fun v => Ok (genericTypeValidator v TInt));
    (u "macintoshFONDName", fun v => Ok (genericTypeValidator v TStr)) ].
(** __init__.py 1880-1922 *)
Definition version3Update : list (str * (pyval -> res bool)) :=
  [ (u "versionMinor", fun v => Ok (genericNonNegativeIntValidator v));
    (u "unitsPerEm", fun v => Ok (genericNonNegativeNumberValidator v));
    (u "openTypeHeadLowestRecPPEM", fun v => Ok (genericNonNegativeNumberValidator v));
    (u "openTypeHheaAscender", fun v => Ok (genericTypeValidator v TInt));
    (u "openTypeHheaDescender", fun v => Ok (genericTypeValidator v TInt));
    (u "openTypeHheaLineGap", fun v => Ok (genericTypeValidator v TInt));
    (u "openTypeHheaCaretOffset", fun v => Ok (genericTypeValidator v TInt));
    (u "openTypeOS2Panose", fun v => Ok (fontInfoVersion3OpenTypeOS2PanoseValidator v));
    (u "openTypeOS2TypoAscender", fun v => Ok (genericTypeValidator v TInt));
    (u "openTypeOS2TypoDescender", fun v => Ok (genericTypeValidator v TInt));
    (u "openTypeOS2TypoLineGap", fun v => Ok (genericTypeValidator v TInt));
    (u "openTypeOS2WinAscent", fun v => Ok (genericNonNegativeNumberValidator v));
    (u "openTypeOS2WinDescent", fun v => Ok (genericNonNegativeNumberValidator v));
    (u "openTypeOS2SubscriptXSize", fun v => Ok (genericTypeValidator v TInt));
    (u "openTypeOS2SubscriptYSize", fun v => Ok (genericTypeValidator v TInt));
    (u "openTypeOS2SubscriptXOffset", fun v => Ok (genericTypeValidator v TInt));
    (u "openTypeOS2SubscriptYOffset", fun v => Ok (genericTypeValidator v TInt));
    (u "openTypeOS2SuperscriptXSize", fun v => Ok (genericTypeValidator v TInt));
    (u "openTypeOS2SuperscriptYSize", fun v => Ok (genericTypeValidator v TInt));
    (u "openTypeOS2SuperscriptXOffset", fun v => Ok (genericTypeValidator v TInt));
    (u "openTypeOS2SuperscriptYOffset", fun v => Ok (genericTypeValidator v TInt));
    (u "openTypeOS2StrikeoutSize", fun v => Ok (genericTypeValidator v TInt));
    (u "openTypeOS2StrikeoutPosition", fun v => Ok (genericTypeValidator v TInt));
    (u "openTypeGaspRangeRecords", fontInfoOpenTypeGaspRangeRecordsValidator);
    (u "openTypeNameRecords", fun v => Ok (fontInfoOpenTypeNameRecordsValidator v));
    (u "openTypeVheaVertTypoAscender", fun v => Ok (genericTypeValidator v TInt));
    (u "openTypeVheaVertTypoDescender", fun v => Ok (genericTypeValidator v TInt));
    (u "openTypeVheaVertTypoLineGap", fun v => Ok (genericTypeValidator v TInt));
    (u "openTypeVheaCaretOffset", fun v => Ok (genericTypeValidator v TInt));
    (u "woffMajorVersion", fun v => Ok (genericNonNegativeIntValidator v));
    (u "woffMinorVersion", fun v => Ok (genericNonNegativeIntValidator v));
    (u "woffMetadataUniqueID", fun v => Ok (fontInfoWOFFMetadataUniqueIDValidator v));
    (u "woffMetadataVendor", fun v => Ok (fontInfoWOFFMetadataVendorValidator v));
    (u "woffMetadataCredits", fun v => Ok (fontInfoWOFFMetadataCreditsValidator v));
    (u "woffMetadataDescription", fun v => Ok (fontInfoWOFFMetadataDescriptionValidator v));
    (u "woffMetadataLicense", fontInfoWOFFMetadataLicenseValidator);
    (u "woffMetadataCopyright", fun v => Ok (fontInfoWOFFMetadataCopyrightValidator v));
    (u "woffMetadataTrademark", fun v => Ok (fontInfoWOFFMetadataTrademarkValidator v));
    (u "woffMetadataLicensee", fun v => Ok (fontInfoWOFFMetadataLicenseeValidator v));
    (u "woffMetadataExtensions", fontInfoWOFFMetadataExtensionsValidator);
    (u "guidelines", fun v => Ok (fst (guidelinesValidator T v []))) ].
(** __init__.py 1879-1880: deepcopy, then update *)
Definition fontInfoAttributesVersion3ValueData : list (str * (pyval -> res bool)) :=
  fold_left (fun d '(k, v) => set k v d) version3Update fontInfoAttributesVersion2ValueData.
End WithText.

(** __init__.py 1945-1973 *)
Definition fontInfoAttributesVersion1To2 : list (str * str) :=
  [ (u "menuName", u "styleMapFamilyName");
    (u "designer", u "openTypeNameDesigner");
    (u "designerURL", u "openTypeNameDesignerURL");
    (u "createdBy", u "openTypeNameManufacturer");
    (u "vendorURL", u "openTypeNameManufacturerURL");
    (u "license", u "openTypeNameLicense");
    (u "licenseURL", u "openTypeNameLicenseURL");
    (u "ttVersion", u "openTypeNameVersion");
    (u "ttUniqueID", u "openTypeNameUniqueID");
    (u "notice", u "openTypeNameDescription");
    (u "otFamilyName", u "openTypeNamePreferredFamilyName");
    (u "otStyleName", u "openTypeNamePreferredSubfamilyName");
    (u "otMacName", u "openTypeNameCompatibleFullName");
    (u "weightName", u "postscriptWeightName");
    (u "weightValue", u "openTypeOS2WeightClass");
    (u "ttVendor", u "openTypeOS2VendorID");
    (u "uniqueID", u "postscriptUniqueID");
    (u "fontName", u "postscriptFontName");
    (u "fondID", u "macintoshFONDFamilyID");
    (u "fondName", u "macintoshFONDName");
    (u "defaultWidth", u "postscriptDefaultWidthX");
    (u "slantAngle", u "postscriptSlantAngle");
    (u "fullName", u "postscriptFullName");
    (u "fontStyle", u "styleMapStyleName");
    (u "widthName", u "openTypeOS2WidthClass");
    (u "msCharSet", u "postscriptWindowsCharacterSet") ].
(** __init__.py 1977-1981, before line 1985 adds 0 *)
Definition fontStyle1To2base : list (pyval * pyval) :=
  [ (PInt 64, PStr (u "regular"));
    (PInt 1, PStr (u "italic"));
    (PInt 32, PStr (u "bold"));
    (PInt 33, PStr (u "bold italic")) ].
(** __init__.py 1987-1996, before lines 2001-2008 add four names *)
Definition widthName1To2base : list (pyval * pyval) :=
  [ (PStr (u "Ultra-condensed"), PInt 1);
    (PStr (u "Extra-condensed"), PInt 2);
    (PStr (u "Condensed"), PInt 3);
    (PStr (u "Semi-condensed"), PInt 4);
    (PStr (u "Medium (normal)"), PInt 5);
    (PStr (u "Semi-expanded"), PInt 6);
    (PStr (u "Expanded"), PInt 7);
    (PStr (u "Extra-expanded"), PInt 8);
    (PStr (u "Ultra-expanded"), PInt 9) ].
(** __init__.py 2010-2030 *)
Definition msCharSet1To2 : list (pyval * pyval) :=
  [ (PInt 0, PInt 1);
    (PInt 1, PInt 2);
    (PInt 2, PInt 3);
    (PInt 77, PInt 4);
    (PInt 128, PInt 5);
    (PInt 129, PInt 6);
    (PInt 130, PInt 7);
    (PInt 134, PInt 8);
    (PInt 136, PInt 9);
    (PInt 161, PInt 10);
    (PInt 162, PInt 11);
    (PInt 163, PInt 12);
    (PInt 177, PInt 13);
    (PInt 178, PInt 14);
    (PInt 186, PInt 15);
    (PInt 200, PInt 16);
    (PInt 204, PInt 17);
    (PInt 222, PInt 18);
    (PInt 238, PInt 19);
    (PInt 255, PInt 20) ].
(** __init__.py 2116-2121 *)
Definition ufo2To3NonNegativeInt : list str := map u ["versionMinor"; "openTypeHeadLowestRecPPEM"; "openTypeOS2WinAscent"; "openTypeOS2WinDescent"].
(** __init__.py 2125-2150 *)
Definition ufo2To3FloatToInt : list str := map u ["openTypeHeadLowestRecPPEM"; "openTypeHheaAscender"; "openTypeHheaDescender"; "openTypeHheaLineGap"; "openTypeHheaCaretOffset"; "openTypeOS2TypoAscender"; "openTypeOS2TypoDescender"; "openTypeOS2TypoLineGap"; "openTypeOS2WinAscent"; "openTypeOS2WinDescent"; "openTypeOS2SubscriptXSize"; "openTypeOS2SubscriptYSize"; "openTypeOS2SubscriptXOffset"; "openTypeOS2SubscriptYOffset"; "openTypeOS2SuperscriptXSize"; "openTypeOS2SuperscriptYSize"; "openTypeOS2SuperscriptXOffset"; "openTypeOS2SuperscriptYOffset"; "openTypeOS2StrikeoutSize"; "openTypeOS2StrikeoutPosition"; "openTypeVheaVertTypoAscender"; "openTypeVheaVertTypoDescender"; "openTypeVheaVertTypoLineGap"; "openTypeVheaCaretOffset"].
