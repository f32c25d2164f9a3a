#!/usr/bin/env python3
"""Regenerates /verif/properties.jsonl (one JSON object per line)."""
import json, os
F = "Lib/ufoLib/filenames.py"; G = "Lib/ufoLib/glifLib.py"; K = "Lib/ufoLib/kerning.py"
CV = "Lib/ufoLib/converters.py"; I = "Lib/ufoLib/__init__.py"; V = "Lib/ufoLib/validators.py"
PP = "Lib/ufoLib/pointPen.py"; PL = "Lib/ufoLib/plistlib.py"; ET = "Lib/ufoLib/etree.py"
P = []
def p(title, statement, quantifier, why, *anchors):
    P.append(dict(id="C%02d" % (len(P) + 1), title=title, statement=statement,
                  quantifier=quantifier, why_tests_cant=why, anchors=list(anchors)))

# ---- file names -----------------------------------------------------------
p("Generated file names never clash with existing ones",
  "Whenever userNameToFileName(userName, existing, prefix, suffix) returns a name, the lower-cased name is not in `existing`.",
  "every user name, prefix, suffix, and every collection of existing lower-cased names (of any size)",
  "the clash loops are unbounded searches; tests only try a handful of existing lists",
  F+":userNameToFileName", F+":handleClash1", F+":handleClash2")
p("Generated file names contain no illegal character",
  "The name returned by userNameToFileName is prefix + body + suffix where body contains none of the documented illegal characters (quotes, *, +, /, :, <, >, ?, [, \\, ], |, control characters, DEL).",
  "every unicode user name, prefix, suffix and existing list",
  "needs to hold for every code point and for every clash path",
  F+":userNameToFileName", F+":illegalCharacters")
p("Generated file names fit in 255 characters",
  "The name returned by userNameToFileName is at most 255 characters long (the file name limit the function says it clips to).",
  "every user name, prefix, suffix and existing list with len(prefix)+len(suffix)+15 <= 255",
  "interaction of clipping, reserved-part escaping and clash numbering only shows for particular long names",
  F+":userNameToFileName", F+":handleClash1", F+":maxFileNameLength")
p("Generated file names use no reserved device name and are not hidden",
  "No dot-separated part of the generated body is a reserved name (con, prn, aux, ...) in any capitalisation, and with no prefix the generated name of a non-empty user name does not start with a period.",
  "every user name, existing list and suffix shorter than 240 characters",
  "reserved parts may appear after clipping or numbering of arbitrary names",
  F+":userNameToFileName", F+":reservedFileNames")
p("File name generation always terminates with a name",
  "For a non-empty user name (or non-empty prefix) userNameToFileName terminates and returns a name, raising nothing, as long as fewer than 10^15-2 names exist.",
  "every user name, prefix, suffix and existing list",
  "termination of a search loop over an arbitrary existing list is not testable",
  F+":userNameToFileName", F+":handleClash1", F+":handleClash2")
p("A batch of names gets pairwise different file names",
  "If user names are converted one after the other, each result's lower-cased form being added to `existing`, the resulting file names are pairwise different ignoring case.",
  "every list of user names (repetitions included) and every initial existing list",
  "quantifies over all histories of name generation",
  F+":userNameToFileName", I+":UFOWriter._getGlyphSetFormatVersion3")
# ---- glyph set ------------------------------------------------------------
p("GlyphSet read-your-writes",
  "After writeGlyph(name) returns, getGLIF(name) returns exactly the bytes generated for that call, and any glyph stored in another file is unaffected.",
  "every state reachable by any history of writeGlyph/deleteGlyph/writeContents/rebuildContents/getReverseContents calls",
  "must hold after every history of operations, including cached and unchanged-data paths",
  G+":GlyphSet.writeGlyph", G+":GlyphSet.getGLIF")
p("Distinct glyphs never share a .glif file",
  "In a GlyphSet that starts empty, two different glyph names in `contents` are never mapped to the same file (so writing one glyph can not overwrite another), whatever glyph names are written.",
  "every history of GlyphSet operations with the default glyph-name-to-file-name function, every glyph name",
  "collisions depend on pairs of unusual names written in the same session",
  G+":GlyphSet.writeGlyph", G+":glyphNameToFileName", F+":userNameToFileName")
p("A failed writeGlyph leaves the glyph set unchanged",
  "If writeGlyph raises (for example because the glyph data is invalid), contents, file system and the data of all glyphs are as before the call.",
  "every reachable state, glyph name and invalid glyph",
  "exception paths at every possible point of every history",
  G+":GlyphSet.writeGlyph", G+":_writeGlyphToBytes")
p("Every listed glyph has a file",
  "After any history of successful writeGlyph and deleteGlyph calls every glyph in `contents` can be fetched with getGLIF; deleteGlyph removes exactly that glyph and its file.",
  "every history of successful operations",
  "invariant over unbounded histories",
  G+":GlyphSet.writeGlyph", G+":GlyphSet.deleteGlyph", G+":GlyphSet.getGLIF")
p("contents.plist round trip",
  "Writing contents.plist with writeContents and reopening the directory (validated) yields the same glyph-name-to-file-name mapping.",
  "every reachable state in which every listed file exists",
  "quantifies over all histories and all mappings",
  G+":GlyphSet.writeContents", G+":GlyphSet.rebuildContents")
p("Glyph set survives a crash at any point",
  "If the process dies between any two file system operations of a session, reopening the directory with validation succeeds and every glyph listed in contents.plist can be fetched.",
  "every session history and every crash point in it",
  "crash points are not exercised by tests",
  G+":GlyphSet.writeGlyph", G+":GlyphSet.deleteGlyph", G+":GlyphSet.writeContents")
p("Unchanged glyphs are not rewritten",
  "In a glyph set that already had a contents.plist, writing a glyph whose generated bytes equal the stored ones performs no write, and every other write touches only that glyph's file.",
  "every reachable state and every glyph",
  "a frame property over all files and histories",
  G+":GlyphSet.writeGlyph")
p("getReverseContents is the inverse of contents",
  "At any point of any history, getReverseContents() maps exactly the lower-cased file names to the glyph names of `contents`, whether or not it was cached before.",
  "every history in which no two glyphs share a lower-cased file name",
  "cache coherence over all interleavings of operations",
  G+":GlyphSet.getReverseContents", G+":GlyphSet.writeGlyph", G+":GlyphSet.deleteGlyph")
# ---- kerning --------------------------------------------------------------
p("Kerning lookup follows the precedence rule",
  "lookupKerningValue returns the explicit pair if present, else glyph+group, else group+glyph, else group+group, else the fallback.",
  "every kerning dictionary, groups dictionary, pair and fallback",
  "decision rule over all combinations of present/absent pairs",
  K+":lookupKerningValue")
p("Kerning lookup does not depend on dictionary order or on who builds the maps",
  "For groups accepted by groupsValidator the result of lookupKerningValue does not depend on the iteration order of the groups, and passing precomputed glyph-to-group maps gives the same value as letting the function compute them.",
  "every valid groups dictionary in every order, every kerning and pair",
  "order independence quantifies over all permutations",
  K+":lookupKerningValue", V+":groupsValidator")
p("Kerning up-conversion never merges groups",
  "convertUFO1OrUFO2KerningToUFO3Kerning gives different new names to different groups of the same side and never reuses an existing group name.",
  "every kerning/groups pair and every iteration order of the internal sets",
  "collisions depend on arbitrary combinations of group names and set order",
  CV+":convertUFO1OrUFO2KerningToUFO3Kerning", CV+":makeUniqueGroupName")
p("Kerning up-conversion preserves every kerning value",
  "After up-conversion the value of every pair of the original kerning is found under the renamed pair, and no other pair exists.",
  "every kerning/groups pair for which renaming is collision free",
  "universal over all kerning tables",
  CV+":convertUFO1OrUFO2KerningToUFO3Kerning")
p("Kerning up-conversion keeps all groups and adds copies",
  "Up-conversion keeps every original group unchanged and adds, for each renamed group, a group with the same members under the new public.kern1./public.kern2. name; nothing else is added.",
  "every kerning/groups pair",
  "universal over all group dictionaries",
  CV+":convertUFO1OrUFO2KerningToUFO3Kerning", CV+":findKnownKerningGroups")
p("Down-conversion with the rename maps undoes up-conversion",
  "Feeding the maps of getKerningGroupConversionRenameMaps to setKerningGroupConversionRenameMaps and writing the up-converted kerning and groups to UFO 1/2 stores the original kerning and groups.",
  "every kerning/groups pair whose renaming is collision free",
  "round trip over arbitrary data",
  I+":UFOWriter.setKerningGroupConversionRenameMaps", I+":UFOWriter.writeKerning", I+":UFOWriter.writeGroups", CV+":convertUFO1OrUFO2KerningToUFO3Kerning")
p("Unique group names are found and unused",
  "makeUniqueGroupName terminates and returns the requested name or the name plus a number, not present in the given names; and returns the name itself when it is free.",
  "every name and every finite list of existing names",
  "termination of an unbounded recursion",
  CV+":makeUniqueGroupName")
p("Kerning write/read round trip",
  "A flat kerning dictionary written with UFOWriter.writeKerning (UFO 3) and read with UFOReader.readKerning comes back equal.",
  "every kerning dictionary with string pairs",
  "round trip over arbitrary data",
  I+":UFOWriter.writeKerning", I+":UFOReader.readKerning")
# ---- reader / writer ------------------------------------------------------
p("Up-converted kerning and groups are consistent in any reading order",
  "For UFO 1/2, any sequence of readGroups, readKerning and getKerningGroupConversionRenameMaps calls answers from one and the same conversion of the files on disk, or raises; it never silently returns data that is not the conversion of the files.",
  "every sequence of reader calls and every modification of the files in between",
  "interleavings of calls, external modifications and earlier exceptions",
  I+":UFOReader._upConvertKerning", I+":UFOReader.readGroups", I+":UFOReader.readKerning", I+":UFOReader.getKerningGroupConversionRenameMaps")
p("Opening a writer never downgrades a UFO",
  "UFOWriter(path, formatVersion) on an existing UFO of a higher or unsupported version raises and leaves every file unchanged; on success metainfo.plist states the requested version, which is at least the previous one.",
  "every existing file system content and every requested version",
  "all metainfo contents and error paths",
  I+":UFOWriter.__init__", I+":UFOWriter._writeMetaInfo")
p("A failed plist write does not destroy the stored data",
  "If writing a plist (lib, groups, kerning, fontinfo, ...) fails because the data can not be serialised, the previously stored file content is unchanged.",
  "every UFOWriter (new or existing UFO), every stored file and every unserialisable object",
  "failure paths for arbitrary data",
  I+":_writePlist", PL+":dump")
p("Writing empty data removes the stored data",
  "After writeGroups({}), writeKerning({}), writeLib({}) or writeFeatures('') the corresponding read returns empty data.",
  "every reachable writer state, new or existing UFO",
  "history dependent: stale files written earlier in the session",
  I+":UFOWriter.writeGroups", I+":UFOWriter.writeKerning", I+":UFOWriter.writeLib", I+":UFOWriter.writeFeatures")
p("Unchanged files are not rewritten",
  "When writing to an existing UFO, writing data whose serialisation equals the stored bytes performs no file write (the modification time is preserved); otherwise exactly the target file changes.",
  "every file system content, path and data",
  "frame property over all files",
  I+":_writePlist", I+":UFOWriter.writeBytesToPath")
p("Layers never share a directory",
  "After any sequence of getGlyphSet, renameGlyphSet and deleteGlyphSet calls on a UFO 3 writer, different layers are mapped to directories that differ ignoring case, and at most one layer is mapped to 'glyphs'.",
  "every sequence of layer operations with every layer name",
  "invariant over unbounded histories",
  I+":UFOWriter._getGlyphSetFormatVersion3", I+":UFOWriter.renameGlyphSet", I+":UFOWriter.deleteGlyphSet")
p("Layer contents written are accepted by the reader",
  "A layercontents.plist written by writeLayerContents (validated) is accepted by UFOReader, which reports the same layer names in the given order and the same default layer.",
  "every layer state and every layer order",
  "universal over orders and histories",
  I+":UFOWriter.writeLayerContents", I+":UFOReader.getLayerNames", I+":UFOReader.getDefaultLayerName", V+":layerContentsValidator")
p("layerContentsValidator decides the documented rule",
  "layerContentsValidator accepts exactly: a list of pairs of strings with directory 'glyphs' or 'glyphs.*', non-empty unique layer names, unique existing directories, 'public.default' only on 'glyphs', and 'glyphs' present.",
  "every plist value and every file system",
  "exact characterisation over all inputs",
  V+":layerContentsValidator")
p("Format version restrictions of the writer",
  "For UFO 1 and 2 the writer refuses non-default layers and images, for UFO 1 it refuses features, without touching any file; and a default glyph set can be obtained for every supported version.",
  "every format version, argument combination and file system",
  "decision table over all arguments",
  I+":UFOWriter.getGlyphSet", I+":UFOWriter._getGlyphSetFormatVersion1", I+":UFOWriter.writeFeatures", I+":UFOWriter.writeImage")
p("Image data round trip and signature check",
  "writeImage with validation accepts exactly data beginning with the PNG signature; an accepted image is listed by getImageDirectoryListing and readImage returns the same bytes.",
  "every byte string, image name and file system",
  "round trip over arbitrary data",
  I+":UFOWriter.writeImage", I+":UFOReader.readImage", I+":UFOReader.getImageDirectoryListing", V+":pngValidator")
# ---- font info ------------------------------------------------------------
p("Version 1/2 attribute renaming is lossless",
  "Converting a version 2 attribute name and a valid value to version 1 and back yields the same attribute and value, for every version 2 attribute that exists in version 1.",
  "every version 2 attribute and every valid value",
  "exhaustive over attributes, unbounded values",
  I+":convertFontInfoValueForAttributeFromVersion2ToVersion1", I+":convertFontInfoValueForAttributeFromVersion1ToVersion2")
p("Version 1 to 2 conversion normalises idempotently",
  "Converting version 1 info to version 2, back to 1 and again to 2 gives the same version 2 data as converting once.",
  "every convertible version 1 info dictionary",
  "unbounded values and dictionaries",
  I+":_convertFontInfoDataVersion1ToVersion2", I+":_convertFontInfoDataVersion2ToVersion1")
p("Every valid version 2 font info can be read as version 3",
  "If every attribute of a UFO 2 fontinfo.plist is valid for version 2, then readInfo with validation succeeds, i.e. the up-converted data is valid for version 3.",
  "every version 2 valid info dictionary",
  "numeric corner cases over all ints and floats",
  I+":convertFontInfoValueForAttributeFromVersion2ToVersion3", I+":validateInfoVersion3Data", I+":UFOReader.readInfo")
p("Down-conversion to version 2 drops only version 3 attributes",
  "Writing info to UFO 2 stores exactly the attributes of the object that exist in version 2, with unchanged values, or raises if one of them is not valid in version 2.",
  "every info object",
  "universal over attribute dictionaries",
  I+":_convertFontInfoDataVersion3ToVersion2", I+":UFOWriter.writeInfo")
p("Font info round trip (UFO 3)",
  "writeInfo followed by readInfo sets exactly the attributes of the info object that are not None, with equal values.",
  "every info object whose attributes are valid",
  "round trip over arbitrary data",
  I+":UFOWriter.writeInfo", I+":UFOReader.readInfo")
p("Validated font info satisfies the documented types and ranges",
  "Every attribute value accepted by validateFontInfoVersion3ValueForAttribute has the documented type and range (strings, integers, 1..9 width class, even blues of at most 14 numbers, ...).",
  "every attribute and every python value",
  "soundness over all values",
  I+":validateFontInfoVersion3ValueForAttribute", V)
p("Validators reject instead of crashing",
  "The documented validators return True/False for every plist value, they never raise.",
  "every plist value",
  "exceptions on arbitrary nested values",
  V+":genericDictValidator", V+":fontInfoWOFFMetadataLicenseValidator", V+":genericIntListValidator")
p("openTypeHeadCreated accepts exactly real dates",
  "fontInfoOpenTypeHeadCreatedValidator accepts a string exactly when it has the form YYYY/MM/DD HH:MM:SS (digits) and denotes an existing date and time.",
  "every string",
  "all 19 character strings",
  V+":fontInfoOpenTypeHeadCreatedValidator")
p("identifierValidator decides the identifier rule",
  "identifierValidator accepts exactly the strings of 1 to 100 characters in the range U+0020..U+007E.",
  "every python value", "exact characterisation over all strings", V+":identifierValidator")
p("colorValidator accepts only four components in [0,1]",
  "colorValidator accepts a string only if it has four comma separated numeric components, each between 0 and 1.",
  "every string", "all strings, including nan/inf spellings", V+":colorValidator")
p("groupsValidator guarantees single kerning group membership",
  "groupsValidator accepts exactly the dictionaries of named glyph lists in which kerning groups have a complete name and no glyph occurs twice among the first-side (second-side) kerning groups.",
  "every groups dictionary", "exact characterisation over all dictionaries", V+":groupsValidator")
p("Guideline and anchor lists have unique identifiers",
  "If guidelinesValidator or anchorsValidator accepts a list, each item is individually valid and the identifiers of the items are pairwise different and different from the identifiers already in use.",
  "every list and every initial identifier set", "universal over lists", V+":guidelinesValidator", V+":anchorsValidator")
# ---- pens -----------------------------------------------------------------
p("Reversing a contour twice is the identity",
  "Passing a contour through ReverseContourPointPen twice delivers the original points, segment types, smooth flags, names and identifiers.",
  "every closed contour and every open contour that does not end in off-curve points",
  "all contours of all lengths", PP+":ReverseContourPointPen")
p("Reversing a contour reverses the drawing",
  "ReverseContourPointPen outputs the points of a closed contour in reverse order with the same first point, and the segments drawn are the original segments traversed backwards.",
  "every contour", "all contours of all lengths", PP+":ReverseContourPointPen")
p("Segment pen to point pen and back",
  "Drawing any well-formed sequence of segment pen calls through SegmentToPointPen into PointToSegmentPen draws the same outline, closed contours starting at the same point.",
  "every well-formed contour drawn with moveTo/lineTo/curveTo/qCurveTo/closePath/endPath",
  "round trip over all outlines", PP+":SegmentToPointPen", PP+":PointToSegmentPen")
p("Smooth guessing changes nothing but smooth flags",
  "GuessSmoothPointPen forwards the same points with the same segment types and names; it may only set smooth on on-curve points that have an off-curve neighbour.",
  "every contour", "all contours", PP+":GuessSmoothPointPen")
p("Segment conversion loses no point",
  "PointToSegmentPen emits every point of a contour exactly once, in cyclic order; its segments are well-formed and no assertion fails for contours accepted by the GLIF reader.",
  "every contour", "all contours", PP+":BasePointToSegmentPen", PP+":PointToSegmentPen")
# ---- GLIF -----------------------------------------------------------------
p("Outlines accepted by the writer are accepted by the reader",
  "Every sequence of point pen calls accepted (validated) by the GLIF writer yields an outline that readGlyph accepts (validated).",
  "every sequence of pen calls, GLIF formats 1 and 2",
  "all call sequences", G+":GLIFPointPen", G+":_validateAndMassagePointStructures", G+":buildOutlineFormat2")
p("Unicode values round trip",
  "The unicodes written to a GLIF are read back as the same list with duplicates removed, first occurrences in order.",
  "every list of integers", "all lists", G+":_writeUnicodes", G+":_readGlyphFromTreeFormat2")
p("Notes are normalised idempotently",
  "Reading a written note yields its lines stripped and without blank lines; writing and reading that again changes nothing.",
  "every note string", "all strings", G+":_writeNote", G+":_readNote")
p("Glyph attributes round trip",
  "Advance, image, guidelines and anchors accepted by the validated GLIF 2 writer are read back equal (absent numbers as their defaults).",
  "every glyph object", "all values", G+":_writeAdvance", G+":_writeImage", G+":_writeGuidelines", G+":_writeAnchors", G+":_readGlyphFromTreeFormat2")
p("Outline round trip",
  "The point pen calls drawn into a GLIF 2 by the writer are replayed by the reader unchanged (point coordinates, types, smooth, names, identifiers, components and transformations).",
  "every outline accepted by the reader", "all outlines", G+":GLIFPointPen", G+":buildOutlineFormat2")
p("Identifiers are unique in an accepted glyph",
  "If readGlyph (validated, with glyph object and pen) accepts a GLIF 2, all identifiers of contours, points, components, guidelines and anchors are valid and pairwise different.",
  "every GLIF document", "all documents", G+":_readGlyphFromTreeFormat2", G+":buildOutlineFormat2")
p("GLIF 1 glyphs written can be read",
  "A glyph written with formatVersion 1 can be read back, named anchors come back as anchors, and the outline is unchanged.",
  "every glyph and outline", "all glyphs", G+":_writeAnchorsFormat1", G+":buildOutlineFormat1", G+":GLIFPointPen")
p("Rapid fetching agrees with full reading",
  "getUnicodes, getComponentReferences and getImageReferences return for every GLIF accepted by the full reader the unicodes, component bases and image file name the full reader reports.",
  "every accepted GLIF document", "all documents", G+":_fetchUnicodes", G+":_fetchComponentBases", G+":_fetchImageFileName")
p("Whole glyph round trip",
  "readGlyphFromString(writeGlyphToString(glyph)) delivers the glyph's name, advance, unicodes, note, image, guidelines, anchors, outline and lib (normalised).",
  "every glyph whose data is valid", "all glyphs", G+":writeGlyphToString", G+":readGlyphFromString")
p("GLIF format version gate",
  "Validated reading from a UFO 1/2 glyph set rejects every GLIF whose format is not 1, from UFO 3 every GLIF whose format is not 1 or 2, and writeGlyph never writes GLIF 2 to UFO 1/2.",
  "every document and format version", "decision rule over all inputs", G+":_readGlyphFromTree", G+":GlyphSet.readGlyph", G+":GlyphSet.writeGlyph")
# ---- plist / xml ----------------------------------------------------------
p("Property list round trip",
  "Reading the element tree built by plistlib.totree with plistlib.fromtree returns an equal object.",
  "every object built from strings, booleans, 64 bit integers, floats, dates, bytes, lists and string keyed dictionaries, of any depth",
  "unbounded nesting", PL+":totree", PL+":fromtree", PL+":PlistTarget")
p("Binary data round trip",
  "Bytes stored as base64 <data>, wrapped and indented at any nesting level, are read back unchanged.",
  "every byte string and indentation level", "all lengths and alignments", PL+":_encode_base64", PL+":end_data")
p("Date round trip",
  "A datetime with whole seconds stored as <date> is read back unchanged.",
  "every valid datetime of years 1 to 9999 without microseconds", "all dates", PL+":_date_to_string", PL+":_date_from_string")
p("Serialised plists do not depend on dictionary order",
  "plistlib.totree gives the same element tree for dictionaries that differ only in insertion order, at any depth.",
  "every object and every reordering of its dictionaries", "all permutations", PL+":_dict_element")
p("Out of range integers are refused",
  "plistlib serialises an integer exactly when -2^63 <= value < 2^64 and raises OverflowError otherwise.",
  "every integer", "unbounded integers", PL+":_integer_element")
p("XML text and attribute escaping is lossless",
  "An XML parser reads back exactly the text and attribute values given to the (pure python) serializer.",
  "every XML compatible string", "all strings", ET+":_escape_cdata", ET+":_escape_attrib")
p("XML serialisation is parsed back to the same tree",
  "Parsing the output of the pure python serializer yields the element tree that was serialised (tags, attributes in order, text, tails, children).",
  "every element tree with XML names and compatible strings", "all trees", ET+":_serialize_xml")
p("Pretty printing changes only white space between elements",
  "Pretty printing changes no tag, attribute or non-blank text; texts of elements without children are unchanged.",
  "every element tree", "all trees", ET+":_indent")
# ---- misc -----------------------------------------------------------------
p("makeUFOPath replaces the extension",
  "makeUFOPath returns a path in the same directory whose file name is the given file name with its extension replaced by .ufo.",
  "every path", "all strings", I+":makeUFOPath")
p("UFO structure selection",
  "UFOWriter creates a zip exactly when the structure argument asks for zip or an existing UFO is a zip, and refuses to change the structure of an existing UFO.",
  "every combination of structure argument and existing path", "decision table", I+":UFOWriter.__init__", I+":_sniffFileStructure")
p("Character mapping is the exact inverse of the unicodes",
  "getCharacterMapping maps a code to the list of exactly the glyphs having that code, each once.",
  "every glyph set", "all glyph sets", I+":UFOReader.getCharacterMapping")
p("Raw file access round trip",
  "writeBytesToPath followed by readBytesFromPath returns the written bytes, creates missing directories and changes no other file; removePath removes exactly the given file or subtree and then empty parents.",
  "every file system, path and data", "frame property over all file systems", I+":UFOWriter.writeBytesToPath", I+":_readBytesFromPath", I+":UFOWriter.removePath")
p("Layer info round trip",
  "writeLayerInfo followed by readLayerInfo sets exactly the non-empty color and lib of the info object; writing empty info removes stored layer info.",
  "every layer info object and glyph set", "all values and histories", G+":GlyphSet.writeLayerInfo", G+":GlyphSet.readLayerInfo")

# ---- added while the model grew ---------------------------------------------
p("Glyph names that differ only in case get different file names",
  "Two short ASCII names that differ only in the case of ASCII letters get file names that differ even when case is ignored.",
  "every pair of names", "all strings", F+":userNameToFileName")
p("A guideline is a vertical, a horizontal or an angled line",
  "A guideline accepted by guidelineValidator has x only, y only, or x, y and an angle in 0..360 (numbers), a string name, a valid identifier and colour if any, and no other key.",
  "every python value", "all values", V+":guidelineValidator")
p("kerningValidator decides the documented rule",
  "kerningValidator accepts exactly dictionaries from strings to dictionaries from strings to numbers.",
  "every python value", "exact characterisation", V+":kerningValidator")
p("pngValidator decides the signature rule",
  "Image data is accepted exactly when it starts with the eight byte PNG signature.",
  "every byte string", "exact characterisation", V+":pngValidator")
p("Feature text is stored as UTF-8 and read back",
  "writeFeatures followed by readFeatures returns the same text; a text that UTF-8 can not encode is refused and changes nothing.",
  "every text and UFO 2 or 3", "all code points", I+":UFOWriter.writeFeatures", I+":UFOReader.readFeatures")
p("Groups, kerning and lib of a UFO 3 are read back",
  "What writeGroups, writeKerning and writeLib store with validation is accepted by readGroups, readKerning and readLib with validation and gives the same data (dictionaries compare without order).",
  "every valid non-empty value and UFO 3", "all values", I+":UFOWriter.writeGroups", I+":UFOWriter.writeKerning", I+":UFOWriter.writeLib", I+":UFOReader.readGroups", I+":UFOReader.readKerning", I+":UFOReader.readLib")
p("copyFromReader copies exactly the source and overwrites nothing",
  "copyFromReader refuses a missing source and an existing destination without any change; otherwise the destination becomes a copy of the source file or subtree and nothing else changes except for the directories made above it.",
  "every pair of file systems and paths", "frame property over all file systems", I+":UFOWriter.copyFromReader")
p("The data directory listing is complete",
  "getDataDirectoryListing returns the paths, relative to the UFO, of exactly the files in the data directory, each once.",
  "every file system", "all trees", I+":UFOReader.getDataDirectoryListing")

p("A reader takes its format version from metainfo.plist",
  "With validation a UFOReader opens exactly the UFOs whose metainfo.plist is a dictionary stating version 1, 2 or 3 and takes that version, raising UFOLibError for every other one; below version 3 it lists and returns no images.",
  "every file system", "exact characterisation over all contents", I+":UFOReader.readMetaInfo", I+":UFOReader.readImage")

p("Reading a glyph, writing it and reading it again changes nothing",
  "If readGlyphFromString (validated) accepts a GLIF document of either format, writeGlyphToString (validated, GLIF 2) accepts what it delivered and reading the result delivers the same glyph attributes and the same pen calls.",
  "every GLIF document", "composition of reader and writer over all documents",
  G+":readGlyphFromString", G+":writeGlyphToString", G+":_readGlyphFromTreeFormat1", G+":_readGlyphFromTreeFormat2")
p("Every accepted glyph has well-formed outlines and can be drawn with a segment pen",
  "If readGlyphFromString (validated) accepts a GLIF document, the calls it makes are complete contours and components whose point types follow the documented rules, and PointToSegmentPen turns them into segments without error.",
  "every GLIF document", "all documents and both formats",
  G+":buildOutlineFormat1", G+":buildOutlineFormat2", G+":_validateAndMassagePointStructures", PP+":PointToSegmentPen")

p("A glyph set is found as it was left, session after session",
  "Take a new glyph set and any sequence of successful writeGlyph, deleteGlyph, writeContents, getReverseContents and getGLIF calls, with the directory saved (writeContents) and opened by a new GlyphSet any number of times in between. Then getGLIF(name) returns the data last written for every glyph not deleted since, raises KeyError for every other name, and saving and opening the directory again works.",
  "every sequence of calls, glyph names, data, file name functions that avoid existing names, case-sensitive and case-insensitive file systems",
  "file names depend on the whole history of writes, deletions and reopenings; tests use a few glyphs of one sample font",
  G+":GlyphSet.writeGlyph", G+":GlyphSet.deleteGlyph", G+":GlyphSet.rebuildContents", G+":GlyphSet.writeContents", F+":userNameToFileName")
p("Glyphs written in a session are read back as they were",
  "In every such session on the glyph set of a UFO 1, 2 or 3, in GLIF 1 and 2, with contents.plist written by plistlib and the glyphs by the GLIF writer, readGlyph(name) delivers for every glyph written and not deleted since the name, attributes and outline last written (up to the normalisations of C51-C53), and KeyError for all other names.",
  "every session as in C84, every glyph object and outline made of values XML can carry",
  "combines file names, contents.plist, the plist codec, the XML serialiser and parser and the GLIF code over arbitrary histories",
  G+":GlyphSet.writeGlyph", G+":GlyphSet.readGlyph", G+":GlyphSet.deleteGlyph", PL+":dumps", PL+":load", G+":_writeGlyphToBytes", G+":_readGlyphFromTree")

p("The references of a glyph set are those of its glyphs",
  "After every such session getUnicodes, getComponentReferences and getImageReferences return a dictionary with exactly the glyphs asked for (all glyphs if none are named), mapping each to the distinct Unicode values, the base glyphs of the components in order and the image file name last written; they raise KeyError if a glyph asked for is not in the glyph set, and change nothing.",
  "every session as in C85, every list of glyph names",
  "the fetchers are separate parsers of the same files; agreement over all written files and histories",
  G+":GlyphSet.getUnicodes", G+":GlyphSet.getComponentReferences", G+":GlyphSet.getImageReferences", G+":_fetchUnicodes", G+":_fetchComponentBases", G+":_fetchImageFileName")

p("plistlib reads exactly the well formed property lists",
  "plistlib.fromtree and load return a value for an element tree exactly when dictionaries alternate keys and values, keys stand nowhere else, and the text of every other element is a valid integer, number, date or base64 text; the value is then the one the tree describes, a key given twice having its last value.",
  "every element tree and document", "all nestings and all malformed shapes; the reader is a stack machine",
  PL+":fromtree", PL+":load", PL+":PlistTarget")

p("A font is found as it was left, session after session",
  "Take a new UFO 3 and any sequence of successful calls of the writer and of its glyph sets: writeInfo, writeGroups, writeKerning, writeLib, writeFeatures, writeImage, removeImage, writeBytesToPath and removePath below the data directory, getGlyphSet, writeGlyph, deleteGlyph, writeLayerInfo, deleteGlyphSet and renameGlyphSet, with the UFO saved (writeContents of every glyph set, writeLayerContents) and opened by a new UFOWriter any number of times. After saving, a UFOReader finds the info, groups, kerning, lib, features, images, data files, layer order, default layer, layer infos and glyphs last written and not deleted since, each in its place, and nothing else.",
  "every sequence of calls, all values a property list or a GLIF can carry, all layer, glyph and image names",
  "every file of the UFO depends on the whole history and on all other calls not touching it",
  I+":UFOWriter", I+":UFOReader", G+":GlyphSet", PL+":dumps", PL+":load")

p("A zipped UFO behaves like a package",
  "For any sequence of sessions on a path (a UFOWriter is made, any methods are called, the writer is closed), a UFO kept in a zip archive gives the same results and exceptions as one kept in a directory, and a UFOReader finds the same files afterwards. Until close() whatever is at the path stays as it was; a constructor that raises leaves an archive unchanged. Calling close() again is harmless.",
  "every path, every sequence of sessions and methods with any arguments, every existing archive with one root directory",
  "the archive is copied, renamed and rewritten as a whole; equivalence over all histories",
  I+":UFOWriter.__init__", I+":UFOWriter.close", I+":UFOReader.__init__")

p("File objects write and read the file at their path",
  "Data written to the object that getFileObjectForPath returns is found at the path: after the old data in mode 'a', alone in modes 'w' and 'x'; 'x' refuses paths where something is; no other file changes and only missing parent directories are made. Mode 'r' and getReadFileForPath change nothing, give the bytes of the file and None exactly when nothing is at the path. Texts written in text mode are read back as one text; a text that can not be encoded is refused and nothing is written. A file that can not be opened raises UFOLibError.",
  "every path text, mode, data and directory tree", "all trees and paths, including those with '.' and '..'",
  I+":UFOWriter.getFileObjectForPath", I+":UFOReader.getReadFileForPath")

p("A glyph drawn with a segment pen is drawn again",
  "Outlines (closed, open and without on-curve points, and components) drawn with moveTo, lineTo, curveTo, qCurveTo and addComponent through a SegmentToPointPen on the pen of writeGlyph are drawn again by glyphSet[name].draw(pen) with the same calls, in GLIF 1 and 2, with or without guessing smooth points; only the start of a closed contour may be replaced by an equal point, the line back to it be left out and the numbers of a transformation be equal ones. After any session glyphSet[name] raises KeyError, and keys() has no such name, for all other glyphs.",
  "every list of outlines with numbers as coordinates and at most two off-curve points in curveTo, every session as in C85",
  "a conversion, an XML file and the opposite conversion, each with special cases for contours; all outlines and histories",
  PP+":SegmentToPointPen", PP+":PointToSegmentPen", PP+":GuessSmoothPointPen", G+":Glyph.draw", G+":Glyph.drawPoints", G+":GlyphSet.__getitem__", G+":GlyphSet.keys", G+":GLIFPointPen")

p("The character mapping of a layer is that of its glyphs",
  "After every session as in C85 the character mapping made from getUnicodes has exactly the Unicode values of the glyphs last written and not deleted since; each is mapped to all glyphs that have it, each glyph once.",
  "every session as in C85 with lists of integers as Unicode values", "all histories and all overlapping sets of Unicode values",
  I+":UFOReader.getCharacterMapping", G+":GlyphSet.getUnicodes", G+":_fetchUnicodes")

p("What plistlib reads it can write again",
  "A value that loads returns has only booleans, integers, floats, texts, bytes, dates, lists and dictionaries with text keys. dumps accepts it, loads reads an equal value from the result (in sorted key order) and dumping that gives the same bytes.",
  "every document", "all documents, also those not written by plistlib", PL+":loads", PL+":dumps", PL+":PlistTarget", PL+":totree")

p("Validation only refuses",
  "With validate=True every reading and writing function returns, draws and writes exactly what it does with validate=False, or raises an exception; for GLIF, lib.plist, metainfo.plist, images and layerinfo.plist the only new exceptions are GlifLibError and UFOLibError. A sequence of UFOWriter sessions, or of calls of a UFOReader, in which nothing is raised has the same results and leaves the same files without validation.",
  "every document, glyph, UFO and sequence of sessions", "the flag is tested in some hundred places; equality over all inputs",
  G+":readGlyphFromString", G+":writeGlyphToString", G+":_readGlyphFromTreeFormat2", G+":GLIFPointPen", I+":UFOReader", I+":UFOWriter", I+":UFOReader.getImageDirectoryListing", G+":_writeUnicodes")

p("What has the documented form is accepted",
  "A fontinfo.plist value of UFO 3 is accepted exactly if it has the type and range documented for its attribute (as in C38: bools count as integers, floats for some integers). A guideline, anchor or image dictionary is accepted exactly if it has only the documented keys and their values have the documented types, ranges, colours and identifiers; lists of guidelines and anchors exactly if their items are and no identifier is used twice. The lib of a font is accepted exactly if it is a dictionary with texts as keys whose public.glyphOrder, if any, is a list of texts, that of a glyph exactly if its public.markColor is a colour, and layer info exactly if it has only a colour and a dictionary as lib.",
  "every Python value and every attribute", "all values; a validator that refuses too much is not noticed by tests of refusals",
  V+":fontInfoOpenTypeGaspRangeRecordsValidator", V+":genericDictValidator", V+":guidelinesValidator", V+":anchorsValidator", V+":imageValidator", I+":validateFontInfoVersion3ValueForAttribute")

p("A writer of a new UFO refuses nothing that is valid",
  "With a new UFO 3 every call that writes valid data (info, groups, kerning, lib, features, images, files in the data directory, layers, glyphs, layer info), every call that removes something that is there (images, data files and directories, glyphs, layers), every renaming of a layer to a name that is free and every call that saves or opens the UFO again succeeds, whatever was done before; afterwards a UFOReader reads all of it, as in C88.",
  "every sequence of calls, every font", "all histories; a call must not be refused because of the files, names or identifiers left by earlier ones",
  I+":UFOWriter", I+":UFOWriter.getGlyphSet", I+":UFOWriter.writeLayerContents", G+":GlyphSet.writeGlyph", G+":GlyphSet.writeContents", G+":GlyphSet.writeLayerInfo", F+":userNameToFileName")

p("Saving a UFO under another name keeps everything",
  "A client that reads a whole UFO 1, 2 or 3 with a UFOReader (info, groups, kerning, lib, features, images, files in the data directory, every layer with its glyphs and layer info) and writes what it got with a UFOWriter to a new place as UFO 3 is refused nothing; a UFOReader of the new UFO returns the same font: equal values (dictionaries up to order), the same layers in the same order with the same default layer, the same glyphs with the same outlines.",
  "every UFO, also those not written by ufoLib", "all UFOs: what the readers accept must be accepted by the writers and read again as the same, for all combinations of files",
  I+":UFOReader", I+":UFOWriter", G+":GlyphSet.readGlyph", G+":GlyphSet.writeGlyph", G+":GlyphSet.readLayerInfo", G+":GlyphSet.writeLayerInfo", PL+":loads", PL+":dumps")

p("Changing a UFO in place keeps the rest",
  "A UFOWriter opened on an existing UFO 3 that a UFOReader reads (whoever has written it) accepts every sequence of valid changes, as in C96. After saving, a UFOReader reads the font as changed: everything that was written, nothing that was removed, and what was found and not changed (info, groups, kerning, lib, features, images, data files, layers, layer info and glyphs) as it was read before. Files and directories in the UFO that ufoLib does not know keep their contents.",
  "every UFO 3 and every sequence of calls", "all UFOs and all histories; what is found must not be lost, mixed up or brought back by changes elsewhere",
  I+":UFOWriter.__init__", I+":UFOWriter.getGlyphSet", I+":UFOWriter.renameGlyphSet", I+":UFOWriter.writeLayerContents", G+":GlyphSet.writeGlyph", G+":GlyphSet.deleteGlyph", G+":GlyphSet.writeContents")

p("Font info of older UFOs means what is documented",
  "readInfo of a UFO 2 sets exactly the attributes of version 2 that fontinfo.plist has, with the same values, except that the attributes that are integers in version 3 become the nearest integer (the even one of two), the three that can not be negative its absolute value, and versionMinor the integer part of its absolute value; a value equal to the result is kept as it is. With a UFO 1 the attributes have the documented new names, whole floats become ints, fontStyle, widthName and msCharSet the documented counterparts, a weightValue of -1 is dropped, and the result is taken as that of a UFO 2. Exactly the values for which this gives no result are refused, with the documented exceptions. writeInfo to UFO 1 writes exactly the attributes that version 1 has, under their old names with the counterparts of their values; with validation only valid values, and never None.",
  "every fontinfo.plist, every info object, every order of the attributes", "all numbers and all dictionaries; exactness (nothing else is set) is not a matter of samples",
  I+":UFOReader.readInfo", I+":UFOWriter.writeInfo", I+":convertFontInfoValueForAttributeFromVersion1ToVersion2", I+":convertFontInfoValueForAttributeFromVersion2ToVersion1", I+":convertFontInfoValueForAttributeFromVersion2ToVersion3", I+":_convertFontInfoDataVersion1ToVersion2", I+":_convertFontInfoDataVersion2ToVersion1")

p("Work that has not been saved does not damage what has been",
  "After a save (writeContents of every glyph set, writeLayerContents) and any further valid calls that are not followed by a save, a UFOReader still reads the UFO without an exception: the layers of that save in their order and with their default layer, each with at least the glyphs it had then, these and everything else (info, groups, kerning, lib, features, images, data files, layer info) as written last.",
  "every font, every sequence of calls before and after the save", "all histories and all points at which a program can end",
  I+":UFOWriter.writeLayerContents", I+":UFOWriter.getGlyphSet", I+":UFOWriter.deleteGlyphSet", I+":UFOWriter.renameGlyphSet", G+":GlyphSet.writeGlyph", G+":GlyphSet.deleteGlyph", G+":GlyphSet.writeContents")

p("Upgrading an older UFO in place keeps everything",
  "A UFOWriter for UFO 3 that is opened on an existing UFO 1 or UFO 2 that a UFOReader reads, and that is given back what this reader returned for info, groups, kerning, lib and features, accepts every sequence of valid changes after that, as in C96. After saving, a UFOReader finds a UFO 3 and reads the font as changed; everything not changed (also the glyphs, which have not been written again, and files in a data directory) is as the reader of the older UFO returned it. Files and directories that ufoLib does not know keep their contents. Without giving back info, groups and kerning, and without saving, the UFO is not lost either: it can still be read, with the same meaning.",
  "every UFO 1 and UFO 2 and every sequence of calls", "all UFOs of the older versions and all histories; what is stored in the old form must be read in the new one",
  I+":UFOWriter.__init__", I+":UFOWriter.getGlyphSet", I+":UFOWriter.writeLayerContents", I+":UFOReader.readInfo", I+":UFOReader._upConvertKerning", G+":GlyphSet.readGlyph")

p("GLIF documents: what is accepted and what it means",
  "readGlyph (with validation, a glyph object and a point pen) accepts exactly the GLIF documents of the documented form and reads from them exactly what they stand for. The form: a glyph element with a non-empty name and a format (1 or 2, in those asked for), without text; at most one outline, advance, note, lib and (format 2) image, any number of unicode, guideline and anchor elements in any order, no others; outlines without attributes and text, made of contours and components; points with their allowed attributes, types, smooth values and numbers and no children; contours that start at most once with a move and are closed properly, in format 1 with the off-curve points at the end of an open contour left out, and contours of a single named move point taken as anchors; components with base; libs, images, guidelines and anchors that are valid; identifiers that are used once in the whole glyph. Everything else is refused. The meaning: the calls of the pen in document order with every number, type, name and identifier, missing transformation values and advances 0 or 1 as documented, each unicode once, the note without blank lines and indentation, exactly the attributes the document has elements for.",
  "every document and every list of formats", "acceptance and refusal for all documents; one unchecked attribute or duplicate is a single hole in an unbounded space",
  G+":readGlyphFromString", G+":_readGlyphFromTree", G+":_readGlyphFromTreeFormat1", G+":_readGlyphFromTreeFormat2", G+":buildOutlineFormat1", G+":buildOutlineFormat2", G+":validateAndMassagePointStructures", G+":_readImage", G+":_readNote")

p("Which glyphs the writer accepts",
  "writeGlyphToString with validation accepts exactly the following glyphs, in every other case it raises an exception. The name is a non-empty text; width and height are numbers or None; unicodes is an integer or holds integers only; a true note is a text; a true lib is a valid glyph lib of values that property lists have. In format 2 a true image is a valid image, true guidelines and anchors are lists of valid guidelines and anchors, and no identifier occurs twice in the guidelines, the anchors and the drawing; in format 1 images and guidelines are ignored, and anchors are valid, of which each is drawn as a contour of one move. The drawing calls are in a legal order: points and endPath only in a contour; a move only as the first point; no off-curve point before a line, at most two before a curve and none at the end of an open contour; no smooth off-curve points; coordinates and component transformations are numbers; identifiers are valid. All texts that are written consist of characters of XML 1.0.",
  "every glyph object, every name and every sequence of calls to the pen", "all values and all sequences of calls; a check that is missing, or that refuses too much, is a single hole in an unbounded space",
  G+":writeGlyphToString", G+":_writeAdvance", G+":_writeUnicodes", G+":_writeNote", G+":_writeImage", G+":_writeGuidelines", G+":_writeAnchors", G+":_writeAnchorsFormat1", G+":_writeLib", G+":GLIFPointPen.beginPath", G+":GLIFPointPen.endPath", G+":GLIFPointPen.addPoint", G+":GLIFPointPen.addComponent")

p("Which font info can be written to each version",
  "UFOWriter.writeInfo with validation accepts an info object for UFO 3 exactly if each attribute of UFO 3 that is set (and not None) has the type and range documented for it; for UFO 2, and likewise for UFO 1, exactly if each attribute of UFO 2 that is set has the type and range of UFO 2, in which versionMinor may be negative, unitsPerEm, openTypeHeadLowestRecPPEM and the metrics of the hhea, OS/2 and vhea tables may be any numbers and openTypeOS2Panose any ten integers. Attributes that a version does not have are never a reason to refuse. validateFontInfoVersion2ValueForAttribute and validateFontInfoVersion3ValueForAttribute decide the same types. A date is one of the form YYYY/MM/DD HH:MM:SS whose parts are read by int as a day and a time of the Gregorian calendar.",
  "every info object, every attribute and every value", "all values of all types: a wrong entry of the tables of types is visible only for some values of one attribute",
  I+":UFOWriter.writeInfo", I+":validateFontInfoVersion2ValueForAttribute", I+":validateFontInfoVersion3ValueForAttribute", I+":validateInfoVersion2Data", I+":_convertFontInfoDataVersion3ToVersion2", I+":_convertFontInfoDataVersion2ToVersion1", V+":fontInfoOpenTypeHeadCreatedValidator", V+":fontInfoVersion2OpenTypeOS2PanoseValidator")

p("What can be read from a UFO 3",
  "With validation, each part of a UFO 3 can be read exactly if its file is missing where that is allowed, or holds what the specification asks for, and what is read is the content of the file. groups.plist: a dictionary of named lists, kerning groups with a name after the prefix and texts only, no glyph twice in the groups of one side; kerning.plist: texts to texts to numbers, read as the dictionary of its pairs; lib.plist: text keys, public.glyphOrder a list of texts; fontinfo.plist: each known attribute has its documented type, unknown attributes are ignored; features.fea: UTF-8; layercontents.plist: the rule of the layers, read in order, the default layer is the one in the directory glyphs; contents.plist: names to files that exist in the layer directory; layerinfo.plist: a color and a lib; images: files in images that start like a PNG file. In every other case an exception is raised, for groups, kerning and lib UFOLibError. A missing groups, kerning, lib, fontinfo, contents or layerinfo file is read as an empty dictionary, missing features as an empty text.",
  "every UFO structure (tree of files) and every content of its files", "acceptance and refusal for all contents of the files",
  I+":UFOReader.readGroups", I+":UFOReader.readKerning", I+":UFOReader.readLib", I+":UFOReader.readInfo", I+":UFOReader.readFeatures", I+":UFOReader._readLayerContents", I+":UFOReader.getLayerNames", I+":UFOReader.getDefaultLayerName", I+":UFOReader.getGlyphSet", I+":UFOReader.readImage", I+":UFOReader.getImageDirectoryListing", G+":GlyphSet.rebuildContents", G+":GlyphSet.readLayerInfo")

p("Which groups and kerning of an older UFO can be read",
  "With validation, a UFOReader of a UFO 1 or 2 whose groups.plist maps texts to lists of texts and whose kerning.plist maps texts to dictionaries with text keys reads the groups exactly if no group has an empty name, no kerning group has the bare prefix of its side as its name, and no glyph occurs twice in the groups of the first side or twice in those of the second side (the groups of a side are those named @MMK_L_... or @MMK_R_... and those used in the kerning on this side); otherwise it raises UFOLibError. It reads the kerning exactly if all values are numbers. With any other groups.plist both raise UFOLibError, with any other kerning.plist both raise an exception.",
  "every content of both files and every order in which Python iterates over sets", "all groups and all kerning",
  I+":UFOReader.readGroups", I+":UFOReader.readKerning", I+":UFOReader._upConvertKerning", "Lib/ufoLib/converters.py:convertUFO1OrUFO2KerningToUFO3Kerning", V+":groupsValidator", V+":kerningValidator")

p("Groups and kerning written to an older UFO are read again as they were",
  "A UFOWriter of version 1 or 2 accepts every valid groups dictionary and every kerning whose values are numbers. If no group is named @MMK_L_... or @MMK_R_... and the groups used in the kerning have the prefix of their side, a UFOReader of the result reads exactly these groups and this kerning, and its rename maps are empty. If the groups and the kerning were read from a UFO 1 or 2 and the rename maps of that reader are given to setKerningGroupConversionRenameMaps first, then the files written hold exactly the groups and the kerning, under the names, of the files that were read.",
  "every groups and kerning, every writer (new or existing file) and every order in which Python iterates over sets", "a round trip for all groups, kerning and names of groups",
  I+":UFOWriter.writeGroups", I+":UFOWriter.writeKerning", I+":UFOWriter.setKerningGroupConversionRenameMaps", I+":UFOReader.readGroups", I+":UFOReader.readKerning", I+":UFOReader.getKerningGroupConversionRenameMaps", "Lib/ufoLib/converters.py:convertUFO1OrUFO2KerningToUFO3Kerning")

p("The options of plistlib",
  "totree and dumps write an object exactly if it stands for a value that they write by default, and then exactly like it: Data objects and bytearrays stand for bytes whatever the options; with use_builtin_types=False bytes stand for the text of the same ASCII characters and other bytes raise ValueError; with skipkeys=True entries whose keys are no texts are left out at every depth, without it they raise TypeError; with sort_keys as well a dictionary with both kinds of keys raises TypeError. fromtree and loads with use_builtin_types=False read exactly what they read by default, with a Data object in the place of bytes. Data.fromBase64 undoes Data.asBase64 for every line length and indentation. readPlistFromString and writePlistToString are loads and dumps with use_builtin_types=False.",
  "every object, every tree and file, every combination of the options", "all values at every depth and all combinations of options",
  "Lib/ufoLib/plistlib.py:totree", "Lib/ufoLib/plistlib.py:fromtree", "Lib/ufoLib/plistlib.py:loads", "Lib/ufoLib/plistlib.py:dumps", "Lib/ufoLib/plistlib.py:Data", "Lib/ufoLib/plistlib.py:_dict_element", "Lib/ufoLib/plistlib.py:_string_or_data_element", "Lib/ufoLib/plistlib.py:readPlistFromString", "Lib/ufoLib/plistlib.py:writePlistToString")

p("Font info through an older UFO",
  "Font info that writeInfo accepts for UFO 3 it accepts for UFO 2 and UFO 1 as well. Read from the fontinfo.plist of the UFO 2 it has exactly the attributes of UFO 2 that were set, each with the value it had; read from that of the UFO 1 it has exactly the attributes of UFO 1 that were set, under their names of UFO 3, each with a value equal to the one it had. Neither is refused.",
  "every info object whose values a property list can store, every state of the UFO, every iteration order of the attributes of UFO 1", "all values of all attributes in all combinations, through a conversion in each direction and a file",
  I+":UFOWriter.writeInfo", I+":UFOReader.readInfo", I+":convertFontInfoValueForAttributeFromVersion2ToVersion1", I+":convertFontInfoValueForAttributeFromVersion1ToVersion2", I+":convertFontInfoValueForAttributeFromVersion2ToVersion3", I+":_convertFontInfoDataVersion3ToVersion2")

p("A glyph read in parts",
  "What readGlyph and readGlyphFromString set on the glyph object is the same with and without a point pen, and what they draw is the same with and without a glyph object. A document is accepted with both exactly if it is accepted with the glyph object alone and with the pen alone and, when validating, no contour, point or component has the identifier of a guideline or anchor. Without a glyph object nothing is set, without a pen nothing is drawn.",
  "every document, every list of format versions, with and without validation", "all documents, in four ways of reading",
  G+":readGlyphFromString", G+":GlyphSet.readGlyph", G+":_readGlyphFromTree", G+":_readGlyphFromTreeFormat1", G+":_readGlyphFromTreeFormat2", G+":buildOutlineFormat1", G+":buildOutlineFormat2")

p("Which font info of an older UFO can be read",
  "With validation, a dictionary in the fontinfo.plist of a UFO 2 is read exactly if each attribute of UFO 2 that is set fits: one that is an integer in UFO 3 has a finite number that is no float with a whole value; versionMinor a finite number that is no float with a whole value of zero or more; openTypeHeadLowestRecPPEM, openTypeOS2WinAscent and openTypeOS2WinDescent have any finite number; every other attribute has a value of its type in UFO 3. One of a UFO 1 is read exactly if the value of each attribute of UFO 1 that is set (a weightValue of -1 is not) has a counterpart in UFO 2 that fits. Attributes of neither version do not matter.",
  "every dictionary with text keys, every iteration order of the attributes of UFO 1", "all values of all attributes in all combinations",
  I+":UFOReader.readInfo", I+":convertFontInfoValueForAttributeFromVersion1ToVersion2", I+":convertFontInfoValueForAttributeFromVersion2ToVersion3", I+":_convertFontInfoDataVersion1ToVersion2", I+":_convertFontInfoDataVersion2ToVersion3", I+":validateInfoVersion3Data")

p("Which font data a UFOWriter accepts",
  "A validating UFOWriter of version 3 accepts exactly these data, in a new and in an existing UFO in which no directory is at the place of the file; groups, kerning, lib and features (not of version 1) also for an older version, as long as no names have been set for kerning groups. Groups: a dictionary from non-empty names to lists or tuples, whose kerning groups have a name after the prefix, hold texts only and share no glyph with another one of their side. Kerning: a dictionary from pairs of texts to numbers. Lib: a dictionary with text keys, whose public.glyphOrder is a list or tuple of texts. Features: a text without surrogates. Font info: every attribute that is set has its documented type. Layer info of a GlyphSet of version 3: the color, if set, is one, and the lib is a dictionary or empty. All of it except the features must consist of what plistlib writes: texts and keys of characters that XML documents may have, booleans, integers from -2**63 to 2**64-1, floats, dates, bytes, and lists, tuples and dictionaries of these. Everything else raises an exception.",
  "every value, every state of the UFO, new and existing", "all values at every depth",
  G+":GlyphSet.writeLayerInfo", I+":UFOWriter.writeGroups", I+":UFOWriter.writeKerning", I+":UFOWriter.writeLib", I+":UFOWriter.writeFeatures", I+":UFOWriter.writeInfo", I+":_writePlist", "Lib/ufoLib/plistlib.py:dumps", V+":groupsValidator", V+":fontLibValidator")

p("Which calls on layers a UFOWriter accepts and what they do",
  "In a UFO 3 in which every layer has its directory, getGlyphSet makes an empty directory for a new layer, the default directory exactly if the default layer is asked for, and finds a layer that is there as it is; it refuses exactly a second default layer and a default layer that is there under another directory. renameGlyphSet accepts exactly a layer that is there, together with its own name or the name of no layer and, if it is to become the default layer under another name, no default layer at all; its directory moves with all it holds, everything else in the UFO stays. deleteGlyphSet accepts exactly a layer that is there and removes its directory and nothing else. writeLayerContents accepts exactly an order of all layers, whose names are characters of XML. A refused call changes nothing. All this holds again after every such call.",
  "every history of calls, every content of the UFO, every name, fewer than 10**15-3 layers", "all histories and names; where each file of a layer ends up",
  I+":UFOWriter.getGlyphSet", I+":UFOWriter._getGlyphSetFormatVersion3", I+":UFOWriter.renameGlyphSet", I+":UFOWriter.deleteGlyphSet", I+":UFOWriter.writeLayerContents", I+":UFOWriter._findDirectoryForLayerName")

p("The images of a UFO behave like a dictionary",
  "After any sequence of writeImage, removeImage and copyImageFromReader calls with plain file names the images of a UFO 3 are those of a dictionary treated the same way. writeImage is refused exactly if it validates data that do not begin with the PNG signature, removeImage exactly if there is no such image, copyImageFromReader exactly if the other UFO has no such image or this one has one of the new name; a refused call raises UFOLibError and changes nothing. getImageDirectoryListing lists each image once, with validation those that are PNG files, and readImage gives its data. Nothing else in the UFO changes.",
  "every sequence of calls, every UFO whose images directory is missing or holds files only, every source that has no directory in place of the image", "all histories, including refused calls and the removal of the directory with the last image",
  I+":UFOWriter.writeImage", I+":UFOWriter.removeImage", I+":UFOWriter.copyImageFromReader", I+":UFOReader.getImageDirectoryListing", I+":UFOReader.readImage")

p("The files in the data directory behave like a dictionary of paths",
  "After any sequence of writeBytesToPath, removePath (with its default arguments) and copyFromReader calls on paths below the data directory its files are those of a dictionary from paths to bytes treated the same way. Copying a directory copies all files below it. A write or a copy is refused exactly if a file would lie above or below another one, a copy also if there is something at the new path or nothing at the old one; removing a path removes all files below it and is refused exactly if there are none. A refused call changes nothing. getDataDirectoryListing lists each file once, readBytesFromPath gives its bytes, None where there is nothing. No empty directory is left behind and nothing outside the data directory changes.",
  "every sequence of calls, every UFO whose data directory is missing or has no empty directories, every source of files and directories without empty directories", "all histories on nested paths, including refused calls and the removal of directories with their last file",
  I+":UFOWriter.writeBytesToPath", I+":UFOWriter.removePath", I+":UFOWriter.copyFromReader", I+":UFOReader.getDataDirectoryListing", I+":_readBytesFromPath")

if __name__ == "__main__":
    out = os.path.join(os.path.dirname(os.path.abspath(__file__)), "..", "properties.jsonl")
    with open(out, "w") as f:
        for x in P:
            f.write(json.dumps(x, ensure_ascii=False) + "\n")
    print(len(P), "properties")
