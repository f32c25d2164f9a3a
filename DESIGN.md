# A machine checked model of ufoLib

Prover: Coq 8.16.1, standard library only.  Sources: `rocq/theories`, build in `rocq/` with
`coq_makefile -f _CoqProject -o Makefile && make -j4`.

## 1. Method

* Each python function is written as a total Gallina function that follows the python code branch by
  branch; every definition cites file and lines of `/repo/Lib/ufoLib`.  Exceptions are values
  (`res A := Ok a | Err exn`).  A loop whose termination is not structural takes fuel and has an
  explicit `OutOfFuel` outcome; a theorem shows that outcome never happens.
* Properties are stated in `Spec*`/`Prop*` files against small independent specifications (predicates on
  lists, finite maps, file systems), not against the model's helpers.
* Next to every theorem there is an `Example` which instantiates it on a concrete non trivial case, so no
  hypothesis is vacuous.
* A property that is false of the code gets a theorem `..._refuted` (a concrete witness checked by the
  kernel) and, if there is an interesting guarded version, a theorem `..._partial` with the guard visible.
  In the MANIFEST such a property has status `partial`.
* Model mutation: realistic bugs are planted in a scratch copy of the model, see `seeded/LOG.jsonl`.

## 2. Trusted base

* The Coq kernel (8.16.1), `coqc`/`coqchk`.
* No axioms of our own.  `Print Assumptions` is issued after each theorem in the `Prop*` files; section 5
  lists what it prints.
* The reading of the python code, i.e. the correspondence model/code (comments cite the lines).
* Python and its libraries, as far as they are not part of ufoLib.  They are modelled directly (list slicing
  with negative indices, `str.split`, `str.strip`, `int(str)`, `int(str, 16)`, dict insertion order, `zfill`,
  `%04X`, int/float/bool equality, base64) or are parameters with explicitly stated laws.  Laws are
  hypotheses of the theorems, never axioms, and for each of them an instance is proved, so no theorem is
  vacuous:

| parameter | where | laws | instance |
|-----------|-------|------|----------|
| `str.lower` | `LowerLaws.v`: `lower_laws` | `""` is kept; digits and `_` separate contexts; ASCII lower-casing on ASCII strings.  Most theorems about file names need no law at all | `ascii_lower` |
| `str.lower` | `NamesApart.v`: `lower_stable`; `PropLayers.v`: `lower_keeps` | lower-casing twice is lower-casing, the suffix `.glif` and the prefix `glyphs.` stay apart from `contents.plist` and `glyphs` | `ascii_lower` |
| Unicode digits and white space, `float(str)` | `PyText.v`: `pytext_laws` | agree with ASCII below 128; digit values below 10; `float("nan")` is nan | `asciiText`, `toyText` |
| `repr(float)` | `FloatRepr.v`: `repr_laws` | `float(repr(x))` is `x`; `int(repr(x))` fails; the characters used; `float(s)` is a double | `toyRepr` |
| plist codec, seen from `__init__.py` | `UfoProofs.v`: `codec_laws` | what is dumped is loaded again, up to the order of dictionaries and tuples read as lists, for a set of faithful values | `ToyCodec.v`; **plistlib itself** (`plist_codec_laws`, `PlistFiles.v`) |
| plist codec, seen from `GlyphSet` | `GlyphSetProofs.v`: `codec_laws` | the contents dictionary is loaded again, if its strings are kept by the codec | `toy_codec`; **plistlib itself** (`contents_codec_laws`, `PropSession.v`) |
| file identity | `GlyphSet.v`: `canon` | `case_only`: two names of one file differ at most in case | identity, lower-casing |
| `repr` of arbitrary objects | `Glif.v`: `ro` | none | |

* `FS.v` is the description of the part of PyFilesystem2 that `__init__.py` calls (a tree of directories
  and files, operations atomic, case-sensitive); no theorem says that the library behaves like this.  The same
  holds for the description of `ZipFS`, `TempFS` and `copy_fs` in `Zip.v` and of `open` in `FileObj.v`.
* `Etree.v`, `parseXml`: the description of the XML parser (expat through ElementTree) on the documents in
  question: prolog, elements, attributes, character data, entity and character references, line end
  normalisation, attribute value normalisation, comments, processing instructions and CDATA sections.  DTD
  internal subsets and namespaces are not accepted by it.
* lxml: not modelled.  Everything is about the fall-back to the standard library in `etree.py`.

## 3. What is modelled, per property

Status words: P = to be proved as stated; R = believed false of the code, refutation plus guarded theorem.

| id | model | how |
|----|-------|-----|
| C01 | `filenames.py` complete | case analysis of the three return points, freshness test of the loop |
| C02 | same | invariant "all characters legal" through filter, clip, reserved escape, numbering |
| C03 | same | R: `con.con...` grows past 255 after clipping; guarded theorem for names without reserved part |
| C04 | same | split/join lemmas; numbered last part is too long to be reserved |
| C05 | same | pigeonhole: numbered candidates are pairwise different |
| C06 | same + fold | induction over the list of names |
| C07 | `GlyphSet` state machine (contents, caches, files, contents.plist) | invariant over histories |
| C08 | same, with default file name function | R: `"A*"`, `"A_"`; guarded theorem for caseless glyph names |
| C09 | same | R: contents updated before serialisation; guarded theorem for known glyphs |
| C10 | same | invariant: listed glyphs have files, files not shared |
| C11 | same | reopening = reading the stored dictionary |
| C12 | same with crash prefix semantics of file system operations | R: delete then crash; guarded: no delete of a persisted glyph |
| C13 | same with a write log | frame lemma |
| C14 | same | cache coherence invariant |
| C15 | `kerning.py` complete | case analysis |
| C16 | same + `groupsValidator` | uniqueness of the group of a glyph |
| C17 | `converters.py` | R: `keys()` instead of `values()`; guarded theorem for un-prefixed names |
| C18 | same | lookup in mapped association list |
| C19 | same | set/dict lemmas |
| C20 | same + `UFOWriter.writeGroups/writeKerning` | inverse maps |
| C21 | same | pigeonhole |
| C22 | nest / flatten loops | induction over the dictionary |
| C23 | `_upConvertKerning` cache machine | R: exception between caching and conversion; guarded |
| C24 | `UFOWriter.__init__`, metainfo | case analysis |
| C25 | `_writePlist` | R for new UFO; P for existing |
| C26 | writers of groups/kerning/lib/features | R for new UFO; P for existing |
| C27 | `_writePlist`, `writeBytesToPath` with write log | frame lemma |
| C28 | layer operations | R: promotion of a layer under the same name; guarded invariant |
| C29 | `writeLayerContents`, `_readLayerContents` | R: duplicated order; guarded |
| C30 | `layerContentsValidator` | equivalence with a declarative predicate |
| C31 | `getGlyphSet` etc. | R for UFO 1 (tuple bug); rest case analysis |
| C32 | images | round trip over the file system model |
| C33-C36 | attribute tables and conversion functions | exhaustive over the tables, symbolic values |
| C37 | write/read info | validators accept what the plist codec makes of accepted values; then the file |
| C38 | validators + attribute table | per validator soundness lemma, per table row |
| C39 | validators | R: licence text None; guarded |
| C40-C44 | validators | equivalences; R for `+1` fields, nan |
| C45-C49 | `pointPen.py` | list reasoning on contours |
| C50-C59 | `glifLib.py` at element tree level, then text | round trip, R for the wrap-around cases and GLIF 1 identifiers |
| C60-C64 | `plistlib.py` at element tree level | structural induction, base64 arithmetic |
| C65-C67 | `etree.py` serializer + specification parser | induction on trees |
| C68-C72 | paths, structure, character mapping, raw files, layer info | case analysis, file system frame lemmas |
| C73 | `filenames.py` | case analysis, invariant |
| C74-C76 | validators: guidelines, kerning, PNG signature | equivalence with the documented rule |
| C77-C81 | features, groups/kerning/lib in UFO 3, `copyFromReader`, data listing, format version | file system frame lemmas, codec laws |
| C82 | GLIF reader followed by the writer | invariant of what the reader accepts and of the texts it finds, then C58 |
| C83 | GLIF reader, both formats | equivalence with a declarative description of outlines |
| C84 | `GlyphSet` with reopening | simulation: contents and files against the map of what was last written |
| C85, C86 | C84 + plistlib + GLIF writer, reader and fetchers | composition |
| C87 | `plistlib.fromtree`, `load` | both directions against an inductive description of property lists |
| C88 | the writer, its glyph sets and the reader on one file system | simulation: the tree against a record of what was last written; frame lemmas for the files of the other parts |
| C89 | constructors and `close()` on a path | simulation: the temporary tree of an archive against the tree of a package; methods keep trees well-formed |
| C90 | file objects, binary and UTF-8 text mode | as C71; induction over the texts written, `utf8Encode`/`utf8Decode` inverse |
| C91 | C47 + GLIF + C85, glyph objects | composition: what the pens hand over is good for GLIF and looks the same when read |
| C92 | C86 + character mapping | composition with C70 |
| C93 | plist reader, XML parser | invariant of the target's stack along the events: all texts are texts of the document (`XmlClean.v`) |
| C94 | all functions with a validate argument | a relation between the validated and the plain run that binds, folds and sessions preserve |
| C95 | validators | a converse to each step of C38 and C74: values of a shape pass |
| C96 | as C88 | progress beside the invariant of C88, with the list of layers that the client has a glyph set of: each step of valid data about what is there succeeds; the file name search always ends (C06) |
| C97 | as C88 | what a reader accepts is valid data for C96; what C88 reads again makes up the same font; texts of documents that give no tab or carriage return by number are such that XML keeps them (C93, C82) |
| C98 | as C88 | a UFO that is read satisfies the invariant of C88 with what was read as the font; then C96; the entries of the root that ufoLib does not know are changed by no call |
| C99 | attribute tables written out again in the specification, numbers as exact rationals | conversions of one value characterised by their mathematical meaning, then induction over the dictionaries |
| C100 | as C88 | invariant beside that of C88: the contents.plist of each saved layer lists a part of what its glyph set has, with the same files; layercontents.plist is as saved |
| C101 | as C98, of version 1 or 2 | the writer of the older UFO, once the five parts are written again, satisfies the invariant of C88 for the font the reader returned; glyphs of GLIF 1 read the same in a UFO 3 |
| C102 | documents, formats | documents of the form = accepted documents, element by element; the reader's state relates to the meaning of the children read so far (induction over the children from the right), identifiers as one list; every parsed tree has each attribute once |
| C103 | names, glyph objects, pen calls | each part of the tree is written and can be serialized exactly if the part of the glyph is as stated (structural induction over libs); the pen's state is a function of the calls made (induction over the calls); a tree without tails can be serialized exactly if its texts are XML texts |
| C104 | info objects, attributes, values | each entry of the table of version 2 decides its documented shape; writeInfo validates exactly the attributes of the version that are set; the conversion to version 1 succeeds on valid values (induction over the attributes); dates by splitting and joining |
| C105 | trees of files, contents of files | each reader is the parser followed by a check that decides the documented form (C30, C43, C75, C76, C95, C104); the decoder of UTF-8 is the inverse of the encoder (induction over the bytes); the flattened kerning holds each pair once |
| C106 | contents of groups.plist and kerning.plist, orders of sets | the converted groups are described pointwise (C17, C19); a list of all members is free of duplicates exactly if each list is and no two share a member (induction); values are kept and nothing is added (C18) |
| C107 | groups, kerning, orders of sets, trees of files | written files hold the value up to the order of keys (`plist_codec_laws`); dictionaries with the same entries are permutations of each other; the renaming down undoes the one up (C20) |
| C108 | `PlistOptions.v`: totree, fromtree, dumps, loads and Data with all options but dict_type | induction over objects; the target with Data objects simulates the one of `Plist.v` |
| C109 | writeInfo for each version, readInfo of UFO 1 and 2, the property list file | the documented types of UFO 3 imply those of UFO 2; composition of C36, C99 and C104 with the file; false for values that UFO 3 should not accept |
| C110 | readGlyphFromString with and without glyph object and pen | simulation: the state of the whole reading is the state of the two parts put together; the final validation splits by identifiers |
| C111 | UFOReader.readInfo for UFO 1 and 2, both conversions, validateInfoVersion3Data | composition of C99 (what the conversions do and refuse) with C104 (what the validators accept); rounding decided by uniqueness of the nearest integer |
| C112 | writeGroups, writeKerning, writeLib, writeFeatures, writeInfo of a UFO 3, writeLayerInfo, plistlib.dumps | induction over the value for the serializer; case analysis on the file system at the top of the UFO; nested kerning by its lookup specification |
| C113 | getGlyphSet, renameGlyphSet, deleteGlyphSet, writeLayerContents on a tree of files | invariant that layers and directories correspond; each call decided by case analysis on the layers and the file system; R for deleteGlyphSet(None) |
| C114 | writeImage, removeImage, copyImageFromReader and the image readers on a tree of files | refinement of a dictionary; simulation of each call, induction over histories |
| C115 | writeBytesToPath, removePath, copyFromReader and the data readers on nested paths | refinement of a dictionary of paths; simulation of each call, induction over histories |

The files: `X.v` is the model, `XProofs.v` the lemmas, `PropX.v` the specifications and theorems.

| model file | code |
|------------|------|
| `Filenames.v` | `filenames.py`, complete |
| `GlyphSet.v` | `glifLib.py` `GlyphSet`: opening, contents, caches, `writeGlyph`, `deleteGlyph`, `writeContents`, `getGLIF` (105-441) |
| `Kerning.v` | `kerning.py`, `converters.py`, complete; `readKerning`/`writeKerning` data parts |
| `FontInfoTables.v`, `FontInfo.v` | fontinfo attribute tables, validation and conversion (`__init__.py` 454-506, 1175-1213, 1637-2204) |
| `Validators.v` | `validators.py`, complete |
| `FS.v`, `Ufo.v` | `UFOReader`, `UFOWriter`, module functions (`__init__.py` 100-1625) |
| `PointPen.v` | `pointPen.py`: `SegmentToPointPen`, `PointToSegmentPen`/`BasePointToSegmentPen`, `GuessSmoothPointPen`, `ReverseContourPointPen` |
| `Xml.v`, `Plist.v` | `plistlib.py`: `totree`, `fromtree`, `PlistTarget`, `dump(s)`, `load(s)` |
| `Etree.v` | `etree.py` without lxml: serializer, indentation; the parser of the standard library |
| `Glif.v` | `glifLib.py` 536-808 and 864-1621: writer, reader, pen, fetchers |
| `GlyphRefs.v` | `glifLib.py` `GlyphSet.getUnicodes`, `getComponentReferences`, `getImageReferences` (462-505) |
| `Font.v` | no code of its own: a client that uses one `UFOWriter` and one `GlyphSet` for each layer, and a `UFOReader` |
| `SaveAs.v` | no code of its own: a client that reads all of a UFO 1, 2 or 3 and writes it to a new place as UFO 3, and one that changes a UFO 3 in place |
| `Zip.v` | `__init__.py` 204-262, 790-932, 1571-1579: packages and zip archives at a path, `close()` |
| `FileObj.v` | `__init__.py` 354-371, 1017-1042: file objects |
| `GlyphDraw.v` | `glifLib.py` 60-84, 442-458: glyph objects, dictionary methods of `GlyphSet` |

## 4. Not modelled

* lxml; Python 2 (`unicode`, `basestring` and `integerTypes` have their Python 3 meaning).
* `UFOReader`/`UFOWriter` context management, methods after `close()`, deprecation warnings, `__del__`, logging,
  opening files in the deprecated functions `readPlist`/`writePlist`, the command line conversion helpers
  (`test/`, `utils.py` apart from what is used).
* How a zip archive stores its tree; `fs` internals; permissions,
  links, I/O errors; encodings other than UTF-8.
* Modification times (`getFileModificationTime`) and `_getFileModificationTime` of `GlyphSet`.
* Data of a type that validation refuses, where the code run without validation would go on with it; the
  model raises there and says so (`Ufo.v` 208, 311, 336, 539, 606, 650, 698).
* User defined dict-like classes and `dict_type`; `bytearray`, `plistlib.Data`, `use_builtin_types=False` and
  `skipkeys` outside of `PlistOptions.v` (C108).
* Objects passed by reference: a caller that changes a returned dictionary in place.
* What a pen or glyph object has received when an exception is raised half way.  In particular
  `anchorsFormat1` computes all pen calls for the anchors of a GLIF 1 before drawing the first one.
* For documents that are not well-formed XML expat calls handlers for the part before the error; the
  fetchers are modelled for well-formed documents.
* The 4300 digits limit of `int(str)` in newer Python versions.
* Concurrency: ufoLib has none; concurrent external modification is only considered where stated (C23).

## 5. Assumptions printed

Every `Print Assumptions` in the `Prop*` files (and `contents_codec_laws`, `plist_codec_laws`) prints
`Closed under the global context`: no theorem depends on any axiom, neither of ours (there are none) nor of
the standard library.

`coqchk -o` lists, for the environment as a whole, the fields of the module type `Under_rel` of
`Coq.ssr.ssrunder`, which the standard library's tactics load; no theorem depends on them.
