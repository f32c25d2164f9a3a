#!/usr/bin/env python3
"""Write rocq/theories/FontInfoTables.v from the text of the tables in
Lib/ufoLib/__init__.py (read as text)."""
import re
src = open("/repo/Lib/ufoLib/__init__.py").read()
lines = src.split("\n")
def block(start, end):
    i = src.index(start)
    j = src.index(end, i)
    a = src[:i].count("\n") + 1
    b = src[:j].count("\n") + 1
    return src[i + len(start):j], a, b
out = []
P = out.append
P("""(** Tables of __init__.py 1727-2031 and 2116-2150, generated from their text by
    tools/gen_fontinfo_tables.py.  The "type" entry of an attribute is only
    consulted for attributes without a valueValidator (lines 1925-1933), so an
    attribute is mapped to its validator. *)
From Coq Require Import String NArith ZArith Bool Lia List.
From Verif Require Import Base PyVal PyText Validators.
Import ListNotations.
Local Open Scope string_scope.
Local Open Scope list_scope.
""")
def rng(text):
    m = re.match(r"list\(range\((\d+), (\d+)\)\)", text)
    if m:
        return f"map Z.of_nat (seq {m.group(1)} {int(m.group(2))-int(m.group(1))})"
    return text.replace(",", ";").replace("]", "]%Z")
for n in ["fontInfoOpenTypeHeadFlagsOptions", "fontInfoOpenTypeOS2SelectionOptions", "fontInfoOpenTypeOS2UnicodeRangesOptions", "fontInfoOpenTypeOS2CodePageRangesOptions", "fontInfoOpenTypeOS2TypeOptions"]:
    m = re.search(r"^%s = (.*)$" % n, src, re.M)
    l = src[:m.start()].count("\n") + 1
    P(f"(** __init__.py {l} *)\nDefinition {n} : list Z := {rng(m.group(1))}.")
body, a, b = block("fontInfoAttributesVersion1 = set([", "])")
P(f"(** __init__.py {a}-{b} *)\nDefinition fontInfoAttributesVersion1 : list str := map u [" + "; ".join(re.findall(r'"\w+"', body)) + "].")
P("\nSection WithText.\nVariable T : pytext.")
BOOL = {"fontInfoStyleMapStyleNameValidator": 0, "fontInfoOpenTypeHeadCreatedValidator": 1, "fontInfoOpenTypeNameRecordsValidator": 0,
 "fontInfoOpenTypeOS2WeightClassValidator": 0, "fontInfoOpenTypeOS2WidthClassValidator": 0, "fontInfoVersion2OpenTypeOS2PanoseValidator": 0,
 "fontInfoVersion3OpenTypeOS2PanoseValidator": 0, "fontInfoOpenTypeOS2FamilyClassValidator": 0, "fontInfoPostscriptBluesValidator": 0,
 "fontInfoPostscriptOtherBluesValidator": 0, "fontInfoPostscriptStemsValidator": 0, "fontInfoPostscriptWindowsCharacterSetValidator": 0,
 "genericNonNegativeIntValidator": 0, "genericNonNegativeNumberValidator": 0}
RES = {"fontInfoOpenTypeGaspRangeRecordsValidator", "fontInfoWOFFMetadataLicenseValidator", "fontInfoWOFFMetadataExtensionsValidator"}
TYPES = {"basestring": "TStr", "int": "TInt", "(int, float)": "TNumber", "(float, int)": "TNumber", "bool": "TBool"}
def entry(line):
    m = re.match(r'\s*"(\w+)"\s*: dict\(type=(\([^)]*\)|"\w+"|\w+)(?:, valueValidator=(\w+))?(?:, valueOptions=(\w+))?\),?\s*$', line)
    assert m, line
    n, t, v, o = m.groups()
    if v is None:
        r = f"fun v => Ok (genericTypeValidator v {TYPES[t]})"
    elif o:
        assert v == "genericIntListValidator"
        r = f"fun v => genericIntListValidator v {o}"
    elif v == "guidelinesValidator":
        r = "fun v => Ok (fst (guidelinesValidator T v []))"
    elif v in RES:
        r = v
    elif v in BOOL or v.startswith("fontInfoWOFF"):
        r = f"fun v => Ok ({v}{' T' if BOOL.get(v) else ''} v)"
    else:
        raise SystemExit(v)
    return f'(u "{n}", {r})'
for name, start in [("fontInfoAttributesVersion2ValueData", "fontInfoAttributesVersion2ValueData = {"), ("version3Update", "fontInfoAttributesVersion3ValueData.update({")]:
    body, a, b = block(start, "\n}" )
    es = [entry(l) for l in body.split("\n") if l.strip()]
    P(f"(** __init__.py {a}-{b+1} *)\nDefinition {name} : list (str * (pyval -> res bool)) :=\n  [ " + ";\n    ".join(es) + " ].")
P("""(** __init__.py 1879-1880: deepcopy, then update *)
Definition fontInfoAttributesVersion3ValueData : list (str * (pyval -> res bool)) :=
  fold_left (fun d '(k, v) => set k v d) version3Update fontInfoAttributesVersion2ValueData.
End WithText.
""")
def table(name, start, end, extra=(), comment=""):
    body, a, b = block(start, end)
    es = re.findall(r'^\s*("[^"]*"|\d+)\s*:\s*("[^"]*"|\d+)', body, re.M)
    f = lambda x: f"PStr (u {x})" if x[0] == '"' else f"PInt {x}"
    P(f"(** __init__.py {a}-{b}{comment} *)\nDefinition {name} : list (pyval * pyval) :=\n  [ " + ";\n    ".join(f"({f(k)}, {f(v)})" for k, v in list(es) + list(extra)) + " ].")
body, a, b = block("fontInfoAttributesVersion1To2 = {", "\n}")
es = re.findall(r'("\w+")\s*:\s*("\w+")', body)
P(f"(** __init__.py {a}-{b+1} *)\nDefinition fontInfoAttributesVersion1To2 : list (str * str) :=\n  [ " + ";\n    ".join(f"(u {k}, u {v})" for k, v in es) + " ].")
table("fontStyle1To2base", "_fontStyle1To2 = {", "\n}", comment=", before line 1985 adds 0")
table("widthName1To2base", "_widthName1To2 = {", "\n}", comment=", before lines 2001-2008 add four names")
table("msCharSet1To2", "_msCharSet1To2 = {", "\n}")
m = src.index("_ufo2To3NonNegativeInt = set((")
for name, start, end in [("ufo2To3NonNegativeInt", "_ufo2To3NonNegativeInt = set((", "))"), ("ufo2To3FloatToInt", "_ufo2To3FloatToInt = set(((", ")))")]:
    body, a, b = block(start, end)
    P(f"(** __init__.py {a}-{b} *)\nDefinition {name} : list str := map u [" + "; ".join(re.findall(r'"\w+"', body)) + "].")
open("/verif/rocq/theories/FontInfoTables.v", "w").write("\n".join(out) + "\n")
