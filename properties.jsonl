{"id": "C01", "title": "Generated file names never clash with existing ones", "statement": "Whenever userNameToFileName(userName, existing, prefix, suffix) returns a name, the lower-cased name is not in `existing`.", "quantifier": "every user name, prefix, suffix, and every collection of existing lower-cased names (of any size)", "why_tests_cant": "the clash loops are unbounded searches; tests only try a handful of existing lists", "anchors": ["Lib/ufoLib/filenames.py:userNameToFileName", "Lib/ufoLib/filenames.py:handleClash1", "Lib/ufoLib/filenames.py:handleClash2"]}
{"id": "C02", "title": "Generated file names contain no illegal character", "statement": "The name returned by userNameToFileName is prefix + body + suffix where body contains none of the documented illegal characters (quotes, *, +, /, :, <, >, ?, [, \\, ], |, control characters, DEL).", "quantifier": "every unicode user name, prefix, suffix and existing list", "why_tests_cant": "needs to hold for every code point and for every clash path", "anchors": ["Lib/ufoLib/filenames.py:userNameToFileName", "Lib/ufoLib/filenames.py:illegalCharacters"]}
{"id": "C03", "title": "Generated file names fit in 255 characters", "statement": "The name returned by userNameToFileName is at most 255 characters long (the file name limit the function says it clips to).", "quantifier": "every user name, prefix, suffix and existing list with len(prefix)+len(suffix)+15 <= 255", "why_tests_cant": "interaction of clipping, reserved-part escaping and clash numbering only shows for particular long names", "anchors": ["Lib/ufoLib/filenames.py:userNameToFileName", "Lib/ufoLib/filenames.py:handleClash1", "Lib/ufoLib/filenames.py:maxFileNameLength"]}
{"id": "C04", "title": "Generated file names use no reserved device name and are not hidden", "statement": "No dot-separated part of the generated body is a reserved name (con, prn, aux, ...) in any capitalisation, and with no prefix the generated name of a non-empty user name does not start with a period.", "quantifier": "every user name, existing list and suffix shorter than 240 characters", "why_tests_cant": "reserved parts may appear after clipping or numbering of arbitrary names", "anchors": ["Lib/ufoLib/filenames.py:userNameToFileName", "Lib/ufoLib/filenames.py:reservedFileNames"]}
{"id": "C05", "title": "File name generation always terminates with a name", "statement": "For a non-empty user name (or non-empty prefix) userNameToFileName terminates and returns a name, raising nothing, as long as fewer than 10^15-2 names exist.", "quantifier": "every user name, prefix, suffix and existing list", "why_tests_cant": "termination of a search loop over an arbitrary existing list is not testable", "anchors": ["Lib/ufoLib/filenames.py:userNameToFileName", "Lib/ufoLib/filenames.py:handleClash1", "Lib/ufoLib/filenames.py:handleClash2"]}
{"id": "C06", "title": "A batch of names gets pairwise different file names", "statement": "If user names are converted one after the other, each result's lower-cased form being added to `existing`, the resulting file names are pairwise different ignoring case.", "quantifier": "every list of user names (repetitions included) and every initial existing list", "why_tests_cant": "quantifies over all histories of name generation", "anchors": ["Lib/ufoLib/filenames.py:userNameToFileName", "Lib/ufoLib/__init__.py:UFOWriter._getGlyphSetFormatVersion3"]}
{"id": "C07", "title": "GlyphSet read-your-writes", "statement": "After writeGlyph(name) returns, getGLIF(name) returns exactly the bytes generated for that call, and any glyph stored in another file is unaffected.", "quantifier": "every state reachable by any history of writeGlyph/deleteGlyph/writeContents/rebuildContents/getReverseContents calls", "why_tests_cant": "must hold after every history of operations, including cached and unchanged-data paths", "anchors": ["Lib/ufoLib/glifLib.py:GlyphSet.writeGlyph", "Lib/ufoLib/glifLib.py:GlyphSet.getGLIF"]}
{"id": "C08", "title": "Distinct glyphs never share a .glif file", "statement": "In a GlyphSet that starts empty, two different glyph names in `contents` are never mapped to the same file (so writing one glyph can not overwrite another), whatever glyph names are written.", "quantifier": "every history of GlyphSet operations with the default glyph-name-to-file-name function, every glyph name", "why_tests_cant": "collisions depend on pairs of unusual names written in the same session", "anchors": ["Lib/ufoLib/glifLib.py:GlyphSet.writeGlyph", "Lib/ufoLib/glifLib.py:glyphNameToFileName", "Lib/ufoLib/filenames.py:userNameToFileName"]}
{"id": "C09", "title": "A failed writeGlyph leaves the glyph set unchanged", "statement": "If writeGlyph raises (for example because the glyph data is invalid), contents, file system and the data of all glyphs are as before the call.", "quantifier": "every reachable state, glyph name and invalid glyph", "why_tests_cant": "exception paths at every possible point of every history", "anchors": ["Lib/ufoLib/glifLib.py:GlyphSet.writeGlyph", "Lib/ufoLib/glifLib.py:_writeGlyphToBytes"]}
{"id": "C10", "title": "Every listed glyph has a file", "statement": "After any history of successful writeGlyph and deleteGlyph calls every glyph in `contents` can be fetched with getGLIF; deleteGlyph removes exactly that glyph and its file.", "quantifier": "every history of successful operations", "why_tests_cant": "invariant over unbounded histories", "anchors": ["Lib/ufoLib/glifLib.py:GlyphSet.writeGlyph", "Lib/ufoLib/glifLib.py:GlyphSet.deleteGlyph", "Lib/ufoLib/glifLib.py:GlyphSet.getGLIF"]}
{"id": "C11", "title": "contents.plist round trip", "statement": "Writing contents.plist with writeContents and reopening the directory (validated) yields the same glyph-name-to-file-name mapping.", "quantifier": "every reachable state in which every listed file exists", "why_tests_cant": "quantifies over all histories and all mappings", "anchors": ["Lib/ufoLib/glifLib.py:GlyphSet.writeContents", "Lib/ufoLib/glifLib.py:GlyphSet.rebuildContents"]}
{"id": "C12", "title": "Glyph set survives a crash at any point", "statement": "If the process dies between any two file system operations of a session, reopening the directory with validation succeeds and every glyph listed in contents.plist can be fetched.", "quantifier": "every session history and every crash point in it", "why_tests_cant": "crash points are not exercised by tests", "anchors": ["Lib/ufoLib/glifLib.py:GlyphSet.writeGlyph", "Lib/ufoLib/glifLib.py:GlyphSet.deleteGlyph", "Lib/ufoLib/glifLib.py:GlyphSet.writeContents"]}
{"id": "C13", "title": "Unchanged glyphs are not rewritten", "statement": "In a glyph set that already had a contents.plist, writing a glyph whose generated bytes equal the stored ones performs no write, and every other write touches only that glyph's file.", "quantifier": "every reachable state and every glyph", "why_tests_cant": "a frame property over all files and histories", "anchors": ["Lib/ufoLib/glifLib.py:GlyphSet.writeGlyph"]}
{"id": "C14", "title": "getReverseContents is the inverse of contents", "statement": "At any point of any history, getReverseContents() maps exactly the lower-cased file names to the glyph names of `contents`, whether or not it was cached before.", "quantifier": "every history in which no two glyphs share a lower-cased file name", "why_tests_cant": "cache coherence over all interleavings of operations", "anchors": ["Lib/ufoLib/glifLib.py:GlyphSet.getReverseContents", "Lib/ufoLib/glifLib.py:GlyphSet.writeGlyph", "Lib/ufoLib/glifLib.py:GlyphSet.deleteGlyph"]}
{"id": "C15", "title": "Kerning lookup follows the precedence rule", "statement": "lookupKerningValue returns the explicit pair if present, else glyph+group, else group+glyph, else group+group, else the fallback.", "quantifier": "every kerning dictionary, groups dictionary, pair and fallback", "why_tests_cant": "decision rule over all combinations of present/absent pairs", "anchors": ["Lib/ufoLib/kerning.py:lookupKerningValue"]}
{"id": "C16", "title": "Kerning lookup does not depend on dictionary order or on who builds the maps", "statement": "For groups accepted by groupsValidator the result of lookupKerningValue does not depend on the iteration order of the groups, and passing precomputed glyph-to-group maps gives the same value as letting the function compute them.", "quantifier": "every valid groups dictionary in every order, every kerning and pair", "why_tests_cant": "order independence quantifies over all permutations", "anchors": ["Lib/ufoLib/kerning.py:lookupKerningValue", "Lib/ufoLib/validators.py:groupsValidator"]}
{"id": "C17", "title": "Kerning up-conversion never merges groups", "statement": "convertUFO1OrUFO2KerningToUFO3Kerning gives different new names to different groups of the same side and never reuses an existing group name.", "quantifier": "every kerning/groups pair and every iteration order of the internal sets", "why_tests_cant": "collisions depend on arbitrary combinations of group names and set order", "anchors": ["Lib/ufoLib/converters.py:convertUFO1OrUFO2KerningToUFO3Kerning", "Lib/ufoLib/converters.py:makeUniqueGroupName"]}
{"id": "C18", "title": "Kerning up-conversion preserves every kerning value", "statement": "After up-conversion the value of every pair of the original kerning is found under the renamed pair, and no other pair exists.", "quantifier": "every kerning/groups pair for which renaming is collision free", "why_tests_cant": "universal over all kerning tables", "anchors": ["Lib/ufoLib/converters.py:convertUFO1OrUFO2KerningToUFO3Kerning"]}
{"id": "C19", "title": "Kerning up-conversion keeps all groups and adds copies", "statement": "Up-conversion keeps every original group unchanged and adds, for each renamed group, a group with the same members under the new public.kern1./public.kern2. name; nothing else is added.", "quantifier": "every kerning/groups pair", "why_tests_cant": "universal over all group dictionaries", "anchors": ["Lib/ufoLib/converters.py:convertUFO1OrUFO2KerningToUFO3Kerning", "Lib/ufoLib/converters.py:findKnownKerningGroups"]}
{"id": "C20", "title": "Down-conversion with the rename maps undoes up-conversion", "statement": "Feeding the maps of getKerningGroupConversionRenameMaps to setKerningGroupConversionRenameMaps and writing the up-converted kerning and groups to UFO 1/2 stores the original kerning and groups.", "quantifier": "every kerning/groups pair whose renaming is collision free", "why_tests_cant": "round trip over arbitrary data", "anchors": ["Lib/ufoLib/__init__.py:UFOWriter.setKerningGroupConversionRenameMaps", "Lib/ufoLib/__init__.py:UFOWriter.writeKerning", "Lib/ufoLib/__init__.py:UFOWriter.writeGroups", "Lib/ufoLib/converters.py:convertUFO1OrUFO2KerningToUFO3Kerning"]}
{"id": "C21", "title": "Unique group names are found and unused", "statement": "makeUniqueGroupName terminates and returns the requested name or the name plus a number, not present in the given names; and returns the name itself when it is free.", "quantifier": "every name and every finite list of existing names", "why_tests_cant": "termination of an unbounded recursion", "anchors": ["Lib/ufoLib/converters.py:makeUniqueGroupName"]}
{"id": "C22", "title": "Kerning write/read round trip", "statement": "A flat kerning dictionary written with UFOWriter.writeKerning (UFO 3) and read with UFOReader.readKerning comes back equal.", "quantifier": "every kerning dictionary with string pairs", "why_tests_cant": "round trip over arbitrary data", "anchors": ["Lib/ufoLib/__init__.py:UFOWriter.writeKerning", "Lib/ufoLib/__init__.py:UFOReader.readKerning"]}
{"id": "C23", "title": "Up-converted kerning and groups are consistent in any reading order", "statement": "For UFO 1/2, any sequence of readGroups, readKerning and getKerningGroupConversionRenameMaps calls answers from one and the same conversion of the files on disk, or raises; it never silently returns data that is not the conversion of the files.", "quantifier": "every sequence of reader calls and every modification of the files in between", "why_tests_cant": "interleavings of calls, external modifications and earlier exceptions", "anchors": ["Lib/ufoLib/__init__.py:UFOReader._upConvertKerning", "Lib/ufoLib/__init__.py:UFOReader.readGroups", "Lib/ufoLib/__init__.py:UFOReader.readKerning", "Lib/ufoLib/__init__.py:UFOReader.getKerningGroupConversionRenameMaps"]}
{"id": "C24", "title": "Opening a writer never downgrades a UFO", "statement": "UFOWriter(path, formatVersion) on an existing UFO of a higher or unsupported version raises and leaves every file unchanged; on success metainfo.plist states the requested version, which is at least the previous one.", "quantifier": "every existing file system content and every requested version", "why_tests_cant": "all metainfo contents and error paths", "anchors": ["Lib/ufoLib/__init__.py:UFOWriter.__init__", "Lib/ufoLib/__init__.py:UFOWriter._writeMetaInfo"]}
{"id": "C25", "title": "A failed plist write does not destroy the stored data", "statement": "If writing a plist (lib, groups, kerning, fontinfo, ...) fails because the data can not be serialised, the previously stored file content is unchanged.", "quantifier": "every UFOWriter (new or existing UFO), every stored file and every unserialisable object", "why_tests_cant": "failure paths for arbitrary data", "anchors": ["Lib/ufoLib/__init__.py:_writePlist", "Lib/ufoLib/plistlib.py:dump"]}
{"id": "C26", "title": "Writing empty data removes the stored data", "statement": "After writeGroups({}), writeKerning({}), writeLib({}) or writeFeatures('') the corresponding read returns empty data.", "quantifier": "every reachable writer state, new or existing UFO", "why_tests_cant": "history dependent: stale files written earlier in the session", "anchors": ["Lib/ufoLib/__init__.py:UFOWriter.writeGroups", "Lib/ufoLib/__init__.py:UFOWriter.writeKerning", "Lib/ufoLib/__init__.py:UFOWriter.writeLib", "Lib/ufoLib/__init__.py:UFOWriter.writeFeatures"]}
{"id": "C27", "title": "Unchanged files are not rewritten", "statement": "When writing to an existing UFO, writing data whose serialisation equals the stored bytes performs no file write (the modification time is preserved); otherwise exactly the target file changes.", "quantifier": "every file system content, path and data", "why_tests_cant": "frame property over all files", "anchors": ["Lib/ufoLib/__init__.py:_writePlist", "Lib/ufoLib/__init__.py:UFOWriter.writeBytesToPath"]}
{"id": "C28", "title": "Layers never share a directory", "statement": "After any sequence of getGlyphSet, renameGlyphSet and deleteGlyphSet calls on a UFO 3 writer, different layers are mapped to directories that differ ignoring case, and at most one layer is mapped to 'glyphs'.", "quantifier": "every sequence of layer operations with every layer name", "why_tests_cant": "invariant over unbounded histories", "anchors": ["Lib/ufoLib/__init__.py:UFOWriter._getGlyphSetFormatVersion3", "Lib/ufoLib/__init__.py:UFOWriter.renameGlyphSet", "Lib/ufoLib/__init__.py:UFOWriter.deleteGlyphSet"]}
{"id": "C29", "title": "Layer contents written are accepted by the reader", "statement": "A layercontents.plist written by writeLayerContents (validated) is accepted by UFOReader, which reports the same layer names in the given order and the same default layer.", "quantifier": "every layer state and every layer order", "why_tests_cant": "universal over orders and histories", "anchors": ["Lib/ufoLib/__init__.py:UFOWriter.writeLayerContents", "Lib/ufoLib/__init__.py:UFOReader.getLayerNames", "Lib/ufoLib/__init__.py:UFOReader.getDefaultLayerName", "Lib/ufoLib/validators.py:layerContentsValidator"]}
{"id": "C30", "title": "layerContentsValidator decides the documented rule", "statement": "layerContentsValidator accepts exactly: a list of pairs of strings with directory 'glyphs' or 'glyphs.*', non-empty unique layer names, unique existing directories, 'public.default' only on 'glyphs', and 'glyphs' present.", "quantifier": "every plist value and every file system", "why_tests_cant": "exact characterisation over all inputs", "anchors": ["Lib/ufoLib/validators.py:layerContentsValidator"]}
{"id": "C31", "title": "Format version restrictions of the writer", "statement": "For UFO 1 and 2 the writer refuses non-default layers and images, for UFO 1 it refuses features, without touching any file; and a default glyph set can be obtained for every supported version.", "quantifier": "every format version, argument combination and file system", "why_tests_cant": "decision table over all arguments", "anchors": ["Lib/ufoLib/__init__.py:UFOWriter.getGlyphSet", "Lib/ufoLib/__init__.py:UFOWriter._getGlyphSetFormatVersion1", "Lib/ufoLib/__init__.py:UFOWriter.writeFeatures", "Lib/ufoLib/__init__.py:UFOWriter.writeImage"]}
{"id": "C32", "title": "Image data round trip and signature check", "statement": "writeImage with validation accepts exactly data beginning with the PNG signature; an accepted image is listed by getImageDirectoryListing and readImage returns the same bytes.", "quantifier": "every byte string, image name and file system", "why_tests_cant": "round trip over arbitrary data", "anchors": ["Lib/ufoLib/__init__.py:UFOWriter.writeImage", "Lib/ufoLib/__init__.py:UFOReader.readImage", "Lib/ufoLib/__init__.py:UFOReader.getImageDirectoryListing", "Lib/ufoLib/validators.py:pngValidator"]}
{"id": "C33", "title": "Version 1/2 attribute renaming is lossless", "statement": "Converting a version 2 attribute name and a valid value to version 1 and back yields the same attribute and value, for every version 2 attribute that exists in version 1.", "quantifier": "every version 2 attribute and every valid value", "why_tests_cant": "exhaustive over attributes, unbounded values", "anchors": ["Lib/ufoLib/__init__.py:convertFontInfoValueForAttributeFromVersion2ToVersion1", "Lib/ufoLib/__init__.py:convertFontInfoValueForAttributeFromVersion1ToVersion2"]}
{"id": "C34", "title": "Version 1 to 2 conversion normalises idempotently", "statement": "Converting version 1 info to version 2, back to 1 and again to 2 gives the same version 2 data as converting once.", "quantifier": "every convertible version 1 info dictionary", "why_tests_cant": "unbounded values and dictionaries", "anchors": ["Lib/ufoLib/__init__.py:_convertFontInfoDataVersion1ToVersion2", "Lib/ufoLib/__init__.py:_convertFontInfoDataVersion2ToVersion1"]}
{"id": "C35", "title": "Every valid version 2 font info can be read as version 3", "statement": "If every attribute of a UFO 2 fontinfo.plist is valid for version 2, then readInfo with validation succeeds, i.e. the up-converted data is valid for version 3.", "quantifier": "every version 2 valid info dictionary", "why_tests_cant": "numeric corner cases over all ints and floats", "anchors": ["Lib/ufoLib/__init__.py:convertFontInfoValueForAttributeFromVersion2ToVersion3", "Lib/ufoLib/__init__.py:validateInfoVersion3Data", "Lib/ufoLib/__init__.py:UFOReader.readInfo"]}
{"id": "C36", "title": "Down-conversion to version 2 drops only version 3 attributes", "statement": "Writing info to UFO 2 stores exactly the attributes of the object that exist in version 2, with unchanged values, or raises if one of them is not valid in version 2.", "quantifier": "every info object", "why_tests_cant": "universal over attribute dictionaries", "anchors": ["Lib/ufoLib/__init__.py:_convertFontInfoDataVersion3ToVersion2", "Lib/ufoLib/__init__.py:UFOWriter.writeInfo"]}
{"id": "C37", "title": "Font info round trip (UFO 3)", "statement": "writeInfo followed by readInfo sets exactly the attributes of the info object that are not None, with equal values.", "quantifier": "every info object whose attributes are valid", "why_tests_cant": "round trip over arbitrary data", "anchors": ["Lib/ufoLib/__init__.py:UFOWriter.writeInfo", "Lib/ufoLib/__init__.py:UFOReader.readInfo"]}
{"id": "C38", "title": "Validated font info satisfies the documented types and ranges", "statement": "Every attribute value accepted by validateFontInfoVersion3ValueForAttribute has the documented type and range (strings, integers, 1..9 width class, even blues of at most 14 numbers, ...).", "quantifier": "every attribute and every python value", "why_tests_cant": "soundness over all values", "anchors": ["Lib/ufoLib/__init__.py:validateFontInfoVersion3ValueForAttribute", "Lib/ufoLib/validators.py"]}
{"id": "C39", "title": "Validators reject instead of crashing", "statement": "The documented validators return True/False for every plist value, they never raise.", "quantifier": "every plist value", "why_tests_cant": "exceptions on arbitrary nested values", "anchors": ["Lib/ufoLib/validators.py:genericDictValidator", "Lib/ufoLib/validators.py:fontInfoWOFFMetadataLicenseValidator", "Lib/ufoLib/validators.py:genericIntListValidator"]}
{"id": "C40", "title": "openTypeHeadCreated accepts exactly real dates", "statement": "fontInfoOpenTypeHeadCreatedValidator accepts a string exactly when it has the form YYYY/MM/DD HH:MM:SS (digits) and denotes an existing date and time.", "quantifier": "every string", "why_tests_cant": "all 19 character strings", "anchors": ["Lib/ufoLib/validators.py:fontInfoOpenTypeHeadCreatedValidator"]}
{"id": "C41", "title": "identifierValidator decides the identifier rule", "statement": "identifierValidator accepts exactly the strings of 1 to 100 characters in the range U+0020..U+007E.", "quantifier": "every python value", "why_tests_cant": "exact characterisation over all strings", "anchors": ["Lib/ufoLib/validators.py:identifierValidator"]}
{"id": "C42", "title": "colorValidator accepts only four components in [0,1]", "statement": "colorValidator accepts a string only if it has four comma separated numeric components, each between 0 and 1.", "quantifier": "every string", "why_tests_cant": "all strings, including nan/inf spellings", "anchors": ["Lib/ufoLib/validators.py:colorValidator"]}
{"id": "C43", "title": "groupsValidator guarantees single kerning group membership", "statement": "groupsValidator accepts exactly the dictionaries of named glyph lists in which kerning groups have a complete name and no glyph occurs twice among the first-side (second-side) kerning groups.", "quantifier": "every groups dictionary", "why_tests_cant": "exact characterisation over all dictionaries", "anchors": ["Lib/ufoLib/validators.py:groupsValidator"]}
{"id": "C44", "title": "Guideline and anchor lists have unique identifiers", "statement": "If guidelinesValidator or anchorsValidator accepts a list, each item is individually valid and the identifiers of the items are pairwise different and different from the identifiers already in use.", "quantifier": "every list and every initial identifier set", "why_tests_cant": "universal over lists", "anchors": ["Lib/ufoLib/validators.py:guidelinesValidator", "Lib/ufoLib/validators.py:anchorsValidator"]}
{"id": "C45", "title": "Reversing a contour twice is the identity", "statement": "Passing a contour through ReverseContourPointPen twice delivers the original points, segment types, smooth flags, names and identifiers.", "quantifier": "every closed contour and every open contour that does not end in off-curve points", "why_tests_cant": "all contours of all lengths", "anchors": ["Lib/ufoLib/pointPen.py:ReverseContourPointPen"]}
{"id": "C46", "title": "Reversing a contour reverses the drawing", "statement": "ReverseContourPointPen outputs the points of a closed contour in reverse order with the same first point, and the segments drawn are the original segments traversed backwards.", "quantifier": "every contour", "why_tests_cant": "all contours of all lengths", "anchors": ["Lib/ufoLib/pointPen.py:ReverseContourPointPen"]}
{"id": "C47", "title": "Segment pen to point pen and back", "statement": "Drawing any well-formed sequence of segment pen calls through SegmentToPointPen into PointToSegmentPen draws the same outline, closed contours starting at the same point.", "quantifier": "every well-formed contour drawn with moveTo/lineTo/curveTo/qCurveTo/closePath/endPath", "why_tests_cant": "round trip over all outlines", "anchors": ["Lib/ufoLib/pointPen.py:SegmentToPointPen", "Lib/ufoLib/pointPen.py:PointToSegmentPen"]}
{"id": "C48", "title": "Smooth guessing changes nothing but smooth flags", "statement": "GuessSmoothPointPen forwards the same points with the same segment types and names; it may only set smooth on on-curve points that have an off-curve neighbour.", "quantifier": "every contour", "why_tests_cant": "all contours", "anchors": ["Lib/ufoLib/pointPen.py:GuessSmoothPointPen"]}
{"id": "C49", "title": "Segment conversion loses no point", "statement": "PointToSegmentPen emits every point of a contour exactly once, in cyclic order; its segments are well-formed and no assertion fails for contours accepted by the GLIF reader.", "quantifier": "every contour", "why_tests_cant": "all contours", "anchors": ["Lib/ufoLib/pointPen.py:BasePointToSegmentPen", "Lib/ufoLib/pointPen.py:PointToSegmentPen"]}
{"id": "C50", "title": "Outlines accepted by the writer are accepted by the reader", "statement": "Every sequence of point pen calls accepted (validated) by the GLIF writer yields an outline that readGlyph accepts (validated).", "quantifier": "every sequence of pen calls, GLIF formats 1 and 2", "why_tests_cant": "all call sequences", "anchors": ["Lib/ufoLib/glifLib.py:GLIFPointPen", "Lib/ufoLib/glifLib.py:_validateAndMassagePointStructures", "Lib/ufoLib/glifLib.py:buildOutlineFormat2"]}
{"id": "C51", "title": "Unicode values round trip", "statement": "The unicodes written to a GLIF are read back as the same list with duplicates removed, first occurrences in order.", "quantifier": "every list of integers", "why_tests_cant": "all lists", "anchors": ["Lib/ufoLib/glifLib.py:_writeUnicodes", "Lib/ufoLib/glifLib.py:_readGlyphFromTreeFormat2"]}
{"id": "C52", "title": "Notes are normalised idempotently", "statement": "Reading a written note yields its lines stripped and without blank lines; writing and reading that again changes nothing.", "quantifier": "every note string", "why_tests_cant": "all strings", "anchors": ["Lib/ufoLib/glifLib.py:_writeNote", "Lib/ufoLib/glifLib.py:_readNote"]}
{"id": "C53", "title": "Glyph attributes round trip", "statement": "Advance, image, guidelines and anchors accepted by the validated GLIF 2 writer are read back equal (absent numbers as their defaults).", "quantifier": "every glyph object", "why_tests_cant": "all values", "anchors": ["Lib/ufoLib/glifLib.py:_writeAdvance", "Lib/ufoLib/glifLib.py:_writeImage", "Lib/ufoLib/glifLib.py:_writeGuidelines", "Lib/ufoLib/glifLib.py:_writeAnchors", "Lib/ufoLib/glifLib.py:_readGlyphFromTreeFormat2"]}
{"id": "C54", "title": "Outline round trip", "statement": "The point pen calls drawn into a GLIF 2 by the writer are replayed by the reader unchanged (point coordinates, types, smooth, names, identifiers, components and transformations).", "quantifier": "every outline accepted by the reader", "why_tests_cant": "all outlines", "anchors": ["Lib/ufoLib/glifLib.py:GLIFPointPen", "Lib/ufoLib/glifLib.py:buildOutlineFormat2"]}
{"id": "C55", "title": "Identifiers are unique in an accepted glyph", "statement": "If readGlyph (validated, with glyph object and pen) accepts a GLIF 2, all identifiers of contours, points, components, guidelines and anchors are valid and pairwise different.", "quantifier": "every GLIF document", "why_tests_cant": "all documents", "anchors": ["Lib/ufoLib/glifLib.py:_readGlyphFromTreeFormat2", "Lib/ufoLib/glifLib.py:buildOutlineFormat2"]}
{"id": "C56", "title": "GLIF 1 glyphs written can be read", "statement": "A glyph written with formatVersion 1 can be read back, named anchors come back as anchors, and the outline is unchanged.", "quantifier": "every glyph and outline", "why_tests_cant": "all glyphs", "anchors": ["Lib/ufoLib/glifLib.py:_writeAnchorsFormat1", "Lib/ufoLib/glifLib.py:buildOutlineFormat1", "Lib/ufoLib/glifLib.py:GLIFPointPen"]}
{"id": "C57", "title": "Rapid fetching agrees with full reading", "statement": "getUnicodes, getComponentReferences and getImageReferences return for every GLIF accepted by the full reader the unicodes, component bases and image file name the full reader reports.", "quantifier": "every accepted GLIF document", "why_tests_cant": "all documents", "anchors": ["Lib/ufoLib/glifLib.py:_fetchUnicodes", "Lib/ufoLib/glifLib.py:_fetchComponentBases", "Lib/ufoLib/glifLib.py:_fetchImageFileName"]}
{"id": "C58", "title": "Whole glyph round trip", "statement": "readGlyphFromString(writeGlyphToString(glyph)) delivers the glyph's name, advance, unicodes, note, image, guidelines, anchors, outline and lib (normalised).", "quantifier": "every glyph whose data is valid", "why_tests_cant": "all glyphs", "anchors": ["Lib/ufoLib/glifLib.py:writeGlyphToString", "Lib/ufoLib/glifLib.py:readGlyphFromString"]}
{"id": "C59", "title": "GLIF format version gate", "statement": "Validated reading from a UFO 1/2 glyph set rejects every GLIF whose format is not 1, from UFO 3 every GLIF whose format is not 1 or 2, and writeGlyph never writes GLIF 2 to UFO 1/2.", "quantifier": "every document and format version", "why_tests_cant": "decision rule over all inputs", "anchors": ["Lib/ufoLib/glifLib.py:_readGlyphFromTree", "Lib/ufoLib/glifLib.py:GlyphSet.readGlyph", "Lib/ufoLib/glifLib.py:GlyphSet.writeGlyph"]}
{"id": "C60", "title": "Property list round trip", "statement": "Reading the element tree built by plistlib.totree with plistlib.fromtree returns an equal object.", "quantifier": "every object built from strings, booleans, 64 bit integers, floats, dates, bytes, lists and string keyed dictionaries, of any depth", "why_tests_cant": "unbounded nesting", "anchors": ["Lib/ufoLib/plistlib.py:totree", "Lib/ufoLib/plistlib.py:fromtree", "Lib/ufoLib/plistlib.py:PlistTarget"]}
{"id": "C61", "title": "Binary data round trip", "statement": "Bytes stored as base64 <data>, wrapped and indented at any nesting level, are read back unchanged.", "quantifier": "every byte string and indentation level", "why_tests_cant": "all lengths and alignments", "anchors": ["Lib/ufoLib/plistlib.py:_encode_base64", "Lib/ufoLib/plistlib.py:end_data"]}
{"id": "C62", "title": "Date round trip", "statement": "A datetime with whole seconds stored as <date> is read back unchanged.", "quantifier": "every valid datetime of years 1 to 9999 without microseconds", "why_tests_cant": "all dates", "anchors": ["Lib/ufoLib/plistlib.py:_date_to_string", "Lib/ufoLib/plistlib.py:_date_from_string"]}
{"id": "C63", "title": "Serialised plists do not depend on dictionary order", "statement": "plistlib.totree gives the same element tree for dictionaries that differ only in insertion order, at any depth.", "quantifier": "every object and every reordering of its dictionaries", "why_tests_cant": "all permutations", "anchors": ["Lib/ufoLib/plistlib.py:_dict_element"]}
{"id": "C64", "title": "Out of range integers are refused", "statement": "plistlib serialises an integer exactly when -2^63 <= value < 2^64 and raises OverflowError otherwise.", "quantifier": "every integer", "why_tests_cant": "unbounded integers", "anchors": ["Lib/ufoLib/plistlib.py:_integer_element"]}
{"id": "C65", "title": "XML text and attribute escaping is lossless", "statement": "An XML parser reads back exactly the text and attribute values given to the (pure python) serializer.", "quantifier": "every XML compatible string", "why_tests_cant": "all strings", "anchors": ["Lib/ufoLib/etree.py:_escape_cdata", "Lib/ufoLib/etree.py:_escape_attrib"]}
{"id": "C66", "title": "XML serialisation is parsed back to the same tree", "statement": "Parsing the output of the pure python serializer yields the element tree that was serialised (tags, attributes in order, text, tails, children).", "quantifier": "every element tree with XML names and compatible strings", "why_tests_cant": "all trees", "anchors": ["Lib/ufoLib/etree.py:_serialize_xml"]}
{"id": "C67", "title": "Pretty printing changes only white space between elements", "statement": "Pretty printing changes no tag, attribute or non-blank text; texts of elements without children are unchanged.", "quantifier": "every element tree", "why_tests_cant": "all trees", "anchors": ["Lib/ufoLib/etree.py:_indent"]}
{"id": "C68", "title": "makeUFOPath replaces the extension", "statement": "makeUFOPath returns a path in the same directory whose file name is the given file name with its extension replaced by .ufo.", "quantifier": "every path", "why_tests_cant": "all strings", "anchors": ["Lib/ufoLib/__init__.py:makeUFOPath"]}
{"id": "C69", "title": "UFO structure selection", "statement": "UFOWriter creates a zip exactly when the structure argument asks for zip or an existing UFO is a zip, and refuses to change the structure of an existing UFO.", "quantifier": "every combination of structure argument and existing path", "why_tests_cant": "decision table", "anchors": ["Lib/ufoLib/__init__.py:UFOWriter.__init__", "Lib/ufoLib/__init__.py:_sniffFileStructure"]}
{"id": "C70", "title": "Character mapping is the exact inverse of the unicodes", "statement": "getCharacterMapping maps a code to the list of exactly the glyphs having that code, each once.", "quantifier": "every glyph set", "why_tests_cant": "all glyph sets", "anchors": ["Lib/ufoLib/__init__.py:UFOReader.getCharacterMapping"]}
{"id": "C71", "title": "Raw file access round trip", "statement": "writeBytesToPath followed by readBytesFromPath returns the written bytes, creates missing directories and changes no other file; removePath removes exactly the given file or subtree and then empty parents.", "quantifier": "every file system, path and data", "why_tests_cant": "frame property over all file systems", "anchors": ["Lib/ufoLib/__init__.py:UFOWriter.writeBytesToPath", "Lib/ufoLib/__init__.py:_readBytesFromPath", "Lib/ufoLib/__init__.py:UFOWriter.removePath"]}
{"id": "C72", "title": "Layer info round trip", "statement": "writeLayerInfo followed by readLayerInfo sets exactly the non-empty color and lib of the info object; writing empty info removes stored layer info.", "quantifier": "every layer info object and glyph set", "why_tests_cant": "all values and histories", "anchors": ["Lib/ufoLib/glifLib.py:GlyphSet.writeLayerInfo", "Lib/ufoLib/glifLib.py:GlyphSet.readLayerInfo"]}
{"id": "C73", "title": "Glyph names that differ only in case get different file names", "statement": "Two short ASCII names that differ only in the case of ASCII letters get file names that differ even when case is ignored.", "quantifier": "every pair of names", "why_tests_cant": "all strings", "anchors": ["Lib/ufoLib/filenames.py:userNameToFileName"]}
{"id": "C74", "title": "A guideline is a vertical, a horizontal or an angled line", "statement": "A guideline accepted by guidelineValidator has x only, y only, or x, y and an angle in 0..360 (numbers), a string name, a valid identifier and colour if any, and no other key.", "quantifier": "every python value", "why_tests_cant": "all values", "anchors": ["Lib/ufoLib/validators.py:guidelineValidator"]}
{"id": "C75", "title": "kerningValidator decides the documented rule", "statement": "kerningValidator accepts exactly dictionaries from strings to dictionaries from strings to numbers.", "quantifier": "every python value", "why_tests_cant": "exact characterisation", "anchors": ["Lib/ufoLib/validators.py:kerningValidator"]}
{"id": "C76", "title": "pngValidator decides the signature rule", "statement": "Image data is accepted exactly when it starts with the eight byte PNG signature.", "quantifier": "every byte string", "why_tests_cant": "exact characterisation", "anchors": ["Lib/ufoLib/validators.py:pngValidator"]}
{"id": "C77", "title": "Feature text is stored as UTF-8 and read back", "statement": "writeFeatures followed by readFeatures returns the same text; a text that UTF-8 can not encode is refused and changes nothing.", "quantifier": "every text and UFO 2 or 3", "why_tests_cant": "all code points", "anchors": ["Lib/ufoLib/__init__.py:UFOWriter.writeFeatures", "Lib/ufoLib/__init__.py:UFOReader.readFeatures"]}
{"id": "C78", "title": "Groups, kerning and lib of a UFO 3 are read back", "statement": "What writeGroups, writeKerning and writeLib store with validation is accepted by readGroups, readKerning and readLib with validation and gives the same data (dictionaries compare without order).", "quantifier": "every valid non-empty value and UFO 3", "why_tests_cant": "all values", "anchors": ["Lib/ufoLib/__init__.py:UFOWriter.writeGroups", "Lib/ufoLib/__init__.py:UFOWriter.writeKerning", "Lib/ufoLib/__init__.py:UFOWriter.writeLib", "Lib/ufoLib/__init__.py:UFOReader.readGroups", "Lib/ufoLib/__init__.py:UFOReader.readKerning", "Lib/ufoLib/__init__.py:UFOReader.readLib"]}
{"id": "C79", "title": "copyFromReader copies exactly the source and overwrites nothing", "statement": "copyFromReader refuses a missing source and an existing destination without any change; otherwise the destination becomes a copy of the source file or subtree and nothing else changes except for the directories made above it.", "quantifier": "every pair of file systems and paths", "why_tests_cant": "frame property over all file systems", "anchors": ["Lib/ufoLib/__init__.py:UFOWriter.copyFromReader"]}
{"id": "C80", "title": "The data directory listing is complete", "statement": "getDataDirectoryListing returns the paths, relative to the UFO, of exactly the files in the data directory, each once.", "quantifier": "every file system", "why_tests_cant": "all trees", "anchors": ["Lib/ufoLib/__init__.py:UFOReader.getDataDirectoryListing"]}
{"id": "C81", "title": "A reader takes its format version from metainfo.plist", "statement": "With validation a UFOReader opens exactly the UFOs whose metainfo.plist is a dictionary stating version 1, 2 or 3 and takes that version, raising UFOLibError for every other one; below version 3 it lists and returns no images.", "quantifier": "every file system", "why_tests_cant": "exact characterisation over all contents", "anchors": ["Lib/ufoLib/__init__.py:UFOReader.readMetaInfo", "Lib/ufoLib/__init__.py:UFOReader.readImage"]}
{"id": "C82", "title": "Reading a glyph, writing it and reading it again changes nothing", "statement": "If readGlyphFromString (validated) accepts a GLIF document of either format, writeGlyphToString (validated, GLIF 2) accepts what it delivered and reading the result delivers the same glyph attributes and the same pen calls.", "quantifier": "every GLIF document", "why_tests_cant": "composition of reader and writer over all documents", "anchors": ["Lib/ufoLib/glifLib.py:readGlyphFromString", "Lib/ufoLib/glifLib.py:writeGlyphToString", "Lib/ufoLib/glifLib.py:_readGlyphFromTreeFormat1", "Lib/ufoLib/glifLib.py:_readGlyphFromTreeFormat2"]}
{"id": "C83", "title": "Every accepted glyph has well-formed outlines and can be drawn with a segment pen", "statement": "If readGlyphFromString (validated) accepts a GLIF document, the calls it makes are complete contours and components whose point types follow the documented rules, and PointToSegmentPen turns them into segments without error.", "quantifier": "every GLIF document", "why_tests_cant": "all documents and both formats", "anchors": ["Lib/ufoLib/glifLib.py:buildOutlineFormat1", "Lib/ufoLib/glifLib.py:buildOutlineFormat2", "Lib/ufoLib/glifLib.py:_validateAndMassagePointStructures", "Lib/ufoLib/pointPen.py:PointToSegmentPen"]}
{"id": "C84", "title": "A glyph set is found as it was left, session after session", "statement": "Take a new glyph set and any sequence of successful writeGlyph, deleteGlyph, writeContents, getReverseContents and getGLIF calls, with the directory saved (writeContents) and opened by a new GlyphSet any number of times in between. Then getGLIF(name) returns the data last written for every glyph not deleted since, raises KeyError for every other name, and saving and opening the directory again works.", "quantifier": "every sequence of calls, glyph names, data, file name functions that avoid existing names, case-sensitive and case-insensitive file systems", "why_tests_cant": "file names depend on the whole history of writes, deletions and reopenings; tests use a few glyphs of one sample font", "anchors": ["Lib/ufoLib/glifLib.py:GlyphSet.writeGlyph", "Lib/ufoLib/glifLib.py:GlyphSet.deleteGlyph", "Lib/ufoLib/glifLib.py:GlyphSet.rebuildContents", "Lib/ufoLib/glifLib.py:GlyphSet.writeContents", "Lib/ufoLib/filenames.py:userNameToFileName"]}
{"id": "C85", "title": "Glyphs written in a session are read back as they were", "statement": "In every such session on the glyph set of a UFO 1, 2 or 3, in GLIF 1 and 2, with contents.plist written by plistlib and the glyphs by the GLIF writer, readGlyph(name) delivers for every glyph written and not deleted since the name, attributes and outline last written (up to the normalisations of C51-C53), and KeyError for all other names.", "quantifier": "every session as in C84, every glyph object and outline made of values XML can carry", "why_tests_cant": "combines file names, contents.plist, the plist codec, the XML serialiser and parser and the GLIF code over arbitrary histories", "anchors": ["Lib/ufoLib/glifLib.py:GlyphSet.writeGlyph", "Lib/ufoLib/glifLib.py:GlyphSet.readGlyph", "Lib/ufoLib/glifLib.py:GlyphSet.deleteGlyph", "Lib/ufoLib/plistlib.py:dumps", "Lib/ufoLib/plistlib.py:load", "Lib/ufoLib/glifLib.py:_writeGlyphToBytes", "Lib/ufoLib/glifLib.py:_readGlyphFromTree"]}
{"id": "C86", "title": "The references of a glyph set are those of its glyphs", "statement": "After every such session getUnicodes, getComponentReferences and getImageReferences return a dictionary with exactly the glyphs asked for (all glyphs if none are named), mapping each to the distinct Unicode values, the base glyphs of the components in order and the image file name last written; they raise KeyError if a glyph asked for is not in the glyph set, and change nothing.", "quantifier": "every session as in C85, every list of glyph names", "why_tests_cant": "the fetchers are separate parsers of the same files; agreement over all written files and histories", "anchors": ["Lib/ufoLib/glifLib.py:GlyphSet.getUnicodes", "Lib/ufoLib/glifLib.py:GlyphSet.getComponentReferences", "Lib/ufoLib/glifLib.py:GlyphSet.getImageReferences", "Lib/ufoLib/glifLib.py:_fetchUnicodes", "Lib/ufoLib/glifLib.py:_fetchComponentBases", "Lib/ufoLib/glifLib.py:_fetchImageFileName"]}
{"id": "C87", "title": "plistlib reads exactly the well formed property lists", "statement": "plistlib.fromtree and load return a value for an element tree exactly when dictionaries alternate keys and values, keys stand nowhere else, and the text of every other element is a valid integer, number, date or base64 text; the value is then the one the tree describes, a key given twice having its last value.", "quantifier": "every element tree and document", "why_tests_cant": "all nestings and all malformed shapes; the reader is a stack machine", "anchors": ["Lib/ufoLib/plistlib.py:fromtree", "Lib/ufoLib/plistlib.py:load", "Lib/ufoLib/plistlib.py:PlistTarget"]}
{"id": "C88", "title": "A font is found as it was left, session after session", "statement": "Take a new UFO 3 and any sequence of successful calls of the writer and of its glyph sets: writeInfo, writeGroups, writeKerning, writeLib, writeFeatures, writeImage, removeImage, writeBytesToPath and removePath below the data directory, getGlyphSet, writeGlyph, deleteGlyph, writeLayerInfo, deleteGlyphSet and renameGlyphSet, with the UFO saved (writeContents of every glyph set, writeLayerContents) and opened by a new UFOWriter any number of times. After saving, a UFOReader finds the info, groups, kerning, lib, features, images, data files, layer order, default layer, layer infos and glyphs last written and not deleted since, each in its place, and nothing else.", "quantifier": "every sequence of calls, all values a property list or a GLIF can carry, all layer, glyph and image names", "why_tests_cant": "every file of the UFO depends on the whole history and on all other calls not touching it", "anchors": ["Lib/ufoLib/__init__.py:UFOWriter", "Lib/ufoLib/__init__.py:UFOReader", "Lib/ufoLib/glifLib.py:GlyphSet", "Lib/ufoLib/plistlib.py:dumps", "Lib/ufoLib/plistlib.py:load"]}
{"id": "C89", "title": "A zipped UFO behaves like a package", "statement": "For any sequence of sessions on a path (a UFOWriter is made, any methods are called, the writer is closed), a UFO kept in a zip archive gives the same results and exceptions as one kept in a directory, and a UFOReader finds the same files afterwards. Until close() whatever is at the path stays as it was; a constructor that raises leaves an archive unchanged. Calling close() again is harmless.", "quantifier": "every path, every sequence of sessions and methods with any arguments, every existing archive with one root directory", "why_tests_cant": "the archive is copied, renamed and rewritten as a whole; equivalence over all histories", "anchors": ["Lib/ufoLib/__init__.py:UFOWriter.__init__", "Lib/ufoLib/__init__.py:UFOWriter.close", "Lib/ufoLib/__init__.py:UFOReader.__init__"]}
{"id": "C90", "title": "File objects write and read the file at their path", "statement": "Data written to the object that getFileObjectForPath returns is found at the path: after the old data in mode 'a', alone in modes 'w' and 'x'; 'x' refuses paths where something is; no other file changes and only missing parent directories are made. Mode 'r' and getReadFileForPath change nothing, give the bytes of the file and None exactly when nothing is at the path. Texts written in text mode are read back as one text; a text that can not be encoded is refused and nothing is written. A file that can not be opened raises UFOLibError.", "quantifier": "every path text, mode, data and directory tree", "why_tests_cant": "all trees and paths, including those with '.' and '..'", "anchors": ["Lib/ufoLib/__init__.py:UFOWriter.getFileObjectForPath", "Lib/ufoLib/__init__.py:UFOReader.getReadFileForPath"]}
{"id": "C91", "title": "A glyph drawn with a segment pen is drawn again", "statement": "Outlines (closed, open and without on-curve points, and components) drawn with moveTo, lineTo, curveTo, qCurveTo and addComponent through a SegmentToPointPen on the pen of writeGlyph are drawn again by glyphSet[name].draw(pen) with the same calls, in GLIF 1 and 2, with or without guessing smooth points; only the start of a closed contour may be replaced by an equal point, the line back to it be left out and the numbers of a transformation be equal ones. After any session glyphSet[name] raises KeyError, and keys() has no such name, for all other glyphs.", "quantifier": "every list of outlines with numbers as coordinates and at most two off-curve points in curveTo, every session as in C85", "why_tests_cant": "a conversion, an XML file and the opposite conversion, each with special cases for contours; all outlines and histories", "anchors": ["Lib/ufoLib/pointPen.py:SegmentToPointPen", "Lib/ufoLib/pointPen.py:PointToSegmentPen", "Lib/ufoLib/pointPen.py:GuessSmoothPointPen", "Lib/ufoLib/glifLib.py:Glyph.draw", "Lib/ufoLib/glifLib.py:Glyph.drawPoints", "Lib/ufoLib/glifLib.py:GlyphSet.__getitem__", "Lib/ufoLib/glifLib.py:GlyphSet.keys", "Lib/ufoLib/glifLib.py:GLIFPointPen"]}
{"id": "C92", "title": "The character mapping of a layer is that of its glyphs", "statement": "After every session as in C85 the character mapping made from getUnicodes has exactly the Unicode values of the glyphs last written and not deleted since; each is mapped to all glyphs that have it, each glyph once.", "quantifier": "every session as in C85 with lists of integers as Unicode values", "why_tests_cant": "all histories and all overlapping sets of Unicode values", "anchors": ["Lib/ufoLib/__init__.py:UFOReader.getCharacterMapping", "Lib/ufoLib/glifLib.py:GlyphSet.getUnicodes", "Lib/ufoLib/glifLib.py:_fetchUnicodes"]}
{"id": "C93", "title": "What plistlib reads it can write again", "statement": "A value that loads returns has only booleans, integers, floats, texts, bytes, dates, lists and dictionaries with text keys. dumps accepts it, loads reads an equal value from the result (in sorted key order) and dumping that gives the same bytes.", "quantifier": "every document", "why_tests_cant": "all documents, also those not written by plistlib", "anchors": ["Lib/ufoLib/plistlib.py:loads", "Lib/ufoLib/plistlib.py:dumps", "Lib/ufoLib/plistlib.py:PlistTarget", "Lib/ufoLib/plistlib.py:totree"]}
{"id": "C94", "title": "Validation only refuses", "statement": "With validate=True every reading and writing function returns, draws and writes exactly what it does with validate=False, or raises an exception; for GLIF, lib.plist, metainfo.plist, images and layerinfo.plist the only new exceptions are GlifLibError and UFOLibError. A sequence of UFOWriter sessions, or of calls of a UFOReader, in which nothing is raised has the same results and leaves the same files without validation.", "quantifier": "every document, glyph, UFO and sequence of sessions", "why_tests_cant": "the flag is tested in some hundred places; equality over all inputs", "anchors": ["Lib/ufoLib/glifLib.py:readGlyphFromString", "Lib/ufoLib/glifLib.py:writeGlyphToString", "Lib/ufoLib/glifLib.py:_readGlyphFromTreeFormat2", "Lib/ufoLib/glifLib.py:GLIFPointPen", "Lib/ufoLib/__init__.py:UFOReader", "Lib/ufoLib/__init__.py:UFOWriter", "Lib/ufoLib/__init__.py:UFOReader.getImageDirectoryListing", "Lib/ufoLib/glifLib.py:_writeUnicodes"]}
{"id": "C95", "title": "What has the documented form is accepted", "statement": "A fontinfo.plist value of UFO 3 is accepted exactly if it has the type and range documented for its attribute (as in C38: bools count as integers, floats for some integers). A guideline, anchor or image dictionary is accepted exactly if it has only the documented keys and their values have the documented types, ranges, colours and identifiers; lists of guidelines and anchors exactly if their items are and no identifier is used twice. The lib of a font is accepted exactly if it is a dictionary with texts as keys whose public.glyphOrder, if any, is a list of texts, that of a glyph exactly if its public.markColor is a colour, and layer info exactly if it has only a colour and a dictionary as lib.", "quantifier": "every Python value and every attribute", "why_tests_cant": "all values; a validator that refuses too much is not noticed by tests of refusals", "anchors": ["Lib/ufoLib/validators.py:fontInfoOpenTypeGaspRangeRecordsValidator", "Lib/ufoLib/validators.py:genericDictValidator", "Lib/ufoLib/validators.py:guidelinesValidator", "Lib/ufoLib/validators.py:anchorsValidator", "Lib/ufoLib/validators.py:imageValidator", "Lib/ufoLib/__init__.py:validateFontInfoVersion3ValueForAttribute"]}
{"id": "C96", "title": "A writer of a new UFO refuses nothing that is valid", "statement": "With a new UFO 3 every call that writes valid data (info, groups, kerning, lib, features, images, files in the data directory, layers, glyphs, layer info), every call that removes something that is there (images, data files and directories, glyphs, layers), every renaming of a layer to a name that is free and every call that saves or opens the UFO again succeeds, whatever was done before; afterwards a UFOReader reads all of it, as in C88.", "quantifier": "every sequence of calls, every font", "why_tests_cant": "all histories; a call must not be refused because of the files, names or identifiers left by earlier ones", "anchors": ["Lib/ufoLib/__init__.py:UFOWriter", "Lib/ufoLib/__init__.py:UFOWriter.getGlyphSet", "Lib/ufoLib/__init__.py:UFOWriter.writeLayerContents", "Lib/ufoLib/glifLib.py:GlyphSet.writeGlyph", "Lib/ufoLib/glifLib.py:GlyphSet.writeContents", "Lib/ufoLib/glifLib.py:GlyphSet.writeLayerInfo", "Lib/ufoLib/filenames.py:userNameToFileName"]}
{"id": "C97", "title": "Saving a UFO under another name keeps everything", "statement": "A client that reads a whole UFO 1, 2 or 3 with a UFOReader (info, groups, kerning, lib, features, images, files in the data directory, every layer with its glyphs and layer info) and writes what it got with a UFOWriter to a new place as UFO 3 is refused nothing; a UFOReader of the new UFO returns the same font: equal values (dictionaries up to order), the same layers in the same order with the same default layer, the same glyphs with the same outlines.", "quantifier": "every UFO, also those not written by ufoLib", "why_tests_cant": "all UFOs: what the readers accept must be accepted by the writers and read again as the same, for all combinations of files", "anchors": ["Lib/ufoLib/__init__.py:UFOReader", "Lib/ufoLib/__init__.py:UFOWriter", "Lib/ufoLib/glifLib.py:GlyphSet.readGlyph", "Lib/ufoLib/glifLib.py:GlyphSet.writeGlyph", "Lib/ufoLib/glifLib.py:GlyphSet.readLayerInfo", "Lib/ufoLib/glifLib.py:GlyphSet.writeLayerInfo", "Lib/ufoLib/plistlib.py:loads", "Lib/ufoLib/plistlib.py:dumps"]}
{"id": "C98", "title": "Changing a UFO in place keeps the rest", "statement": "A UFOWriter opened on an existing UFO 3 that a UFOReader reads (whoever has written it) accepts every sequence of valid changes, as in C96. After saving, a UFOReader reads the font as changed: everything that was written, nothing that was removed, and what was found and not changed (info, groups, kerning, lib, features, images, data files, layers, layer info and glyphs) as it was read before. Files and directories in the UFO that ufoLib does not know keep their contents.", "quantifier": "every UFO 3 and every sequence of calls", "why_tests_cant": "all UFOs and all histories; what is found must not be lost, mixed up or brought back by changes elsewhere", "anchors": ["Lib/ufoLib/__init__.py:UFOWriter.__init__", "Lib/ufoLib/__init__.py:UFOWriter.getGlyphSet", "Lib/ufoLib/__init__.py:UFOWriter.renameGlyphSet", "Lib/ufoLib/__init__.py:UFOWriter.writeLayerContents", "Lib/ufoLib/glifLib.py:GlyphSet.writeGlyph", "Lib/ufoLib/glifLib.py:GlyphSet.deleteGlyph", "Lib/ufoLib/glifLib.py:GlyphSet.writeContents"]}
{"id": "C99", "title": "Font info of older UFOs means what is documented", "statement": "readInfo of a UFO 2 sets exactly the attributes of version 2 that fontinfo.plist has, with the same values, except that the attributes that are integers in version 3 become the nearest integer (the even one of two), the three that can not be negative its absolute value, and versionMinor the integer part of its absolute value; a value equal to the result is kept as it is. With a UFO 1 the attributes have the documented new names, whole floats become ints, fontStyle, widthName and msCharSet the documented counterparts, a weightValue of -1 is dropped, and the result is taken as that of a UFO 2. Exactly the values for which this gives no result are refused, with the documented exceptions. writeInfo to UFO 1 writes exactly the attributes that version 1 has, under their old names with the counterparts of their values; with validation only valid values, and never None.", "quantifier": "every fontinfo.plist, every info object, every order of the attributes", "why_tests_cant": "all numbers and all dictionaries; exactness (nothing else is set) is not a matter of samples", "anchors": ["Lib/ufoLib/__init__.py:UFOReader.readInfo", "Lib/ufoLib/__init__.py:UFOWriter.writeInfo", "Lib/ufoLib/__init__.py:convertFontInfoValueForAttributeFromVersion1ToVersion2", "Lib/ufoLib/__init__.py:convertFontInfoValueForAttributeFromVersion2ToVersion1", "Lib/ufoLib/__init__.py:convertFontInfoValueForAttributeFromVersion2ToVersion3", "Lib/ufoLib/__init__.py:_convertFontInfoDataVersion1ToVersion2", "Lib/ufoLib/__init__.py:_convertFontInfoDataVersion2ToVersion1"]}
{"id": "C100", "title": "Work that has not been saved does not damage what has been", "statement": "After a save (writeContents of every glyph set, writeLayerContents) and any further valid calls that are not followed by a save, a UFOReader still reads the UFO without an exception: the layers of that save in their order and with their default layer, each with at least the glyphs it had then, these and everything else (info, groups, kerning, lib, features, images, data files, layer info) as written last.", "quantifier": "every font, every sequence of calls before and after the save", "why_tests_cant": "all histories and all points at which a program can end", "anchors": ["Lib/ufoLib/__init__.py:UFOWriter.writeLayerContents", "Lib/ufoLib/__init__.py:UFOWriter.getGlyphSet", "Lib/ufoLib/__init__.py:UFOWriter.deleteGlyphSet", "Lib/ufoLib/__init__.py:UFOWriter.renameGlyphSet", "Lib/ufoLib/glifLib.py:GlyphSet.writeGlyph", "Lib/ufoLib/glifLib.py:GlyphSet.deleteGlyph", "Lib/ufoLib/glifLib.py:GlyphSet.writeContents"]}
{"id": "C101", "title": "Upgrading an older UFO in place keeps everything", "statement": "A UFOWriter for UFO 3 that is opened on an existing UFO 1 or UFO 2 that a UFOReader reads, and that is given back what this reader returned for info, groups, kerning, lib and features, accepts every sequence of valid changes after that, as in C96. After saving, a UFOReader finds a UFO 3 and reads the font as changed; everything not changed (also the glyphs, which have not been written again, and files in a data directory) is as the reader of the older UFO returned it. Files and directories that ufoLib does not know keep their contents. Without giving back info, groups and kerning, and without saving, the UFO is not lost either: it can still be read, with the same meaning.", "quantifier": "every UFO 1 and UFO 2 and every sequence of calls", "why_tests_cant": "all UFOs of the older versions and all histories; what is stored in the old form must be read in the new one", "anchors": ["Lib/ufoLib/__init__.py:UFOWriter.__init__", "Lib/ufoLib/__init__.py:UFOWriter.getGlyphSet", "Lib/ufoLib/__init__.py:UFOWriter.writeLayerContents", "Lib/ufoLib/__init__.py:UFOReader.readInfo", "Lib/ufoLib/__init__.py:UFOReader._upConvertKerning", "Lib/ufoLib/glifLib.py:GlyphSet.readGlyph"]}
{"id": "C102", "title": "GLIF documents: what is accepted and what it means", "statement": "readGlyph (with validation, a glyph object and a point pen) accepts exactly the GLIF documents of the documented form and reads from them exactly what they stand for. The form: a glyph element with a non-empty name and a format (1 or 2, in those asked for), without text; at most one outline, advance, note, lib and (format 2) image, any number of unicode, guideline and anchor elements in any order, no others; outlines without attributes and text, made of contours and components; points with their allowed attributes, types, smooth values and numbers and no children; contours that start at most once with a move and are closed properly, in format 1 with the off-curve points at the end of an open contour left out, and contours of a single named move point taken as anchors; components with base; libs, images, guidelines and anchors that are valid; identifiers that are used once in the whole glyph. Everything else is refused. The meaning: the calls of the pen in document order with every number, type, name and identifier, missing transformation values and advances 0 or 1 as documented, each unicode once, the note without blank lines and indentation, exactly the attributes the document has elements for.", "quantifier": "every document and every list of formats", "why_tests_cant": "acceptance and refusal for all documents; one unchecked attribute or duplicate is a single hole in an unbounded space", "anchors": ["Lib/ufoLib/glifLib.py:readGlyphFromString", "Lib/ufoLib/glifLib.py:_readGlyphFromTree", "Lib/ufoLib/glifLib.py:_readGlyphFromTreeFormat1", "Lib/ufoLib/glifLib.py:_readGlyphFromTreeFormat2", "Lib/ufoLib/glifLib.py:buildOutlineFormat1", "Lib/ufoLib/glifLib.py:buildOutlineFormat2", "Lib/ufoLib/glifLib.py:validateAndMassagePointStructures", "Lib/ufoLib/glifLib.py:_readImage", "Lib/ufoLib/glifLib.py:_readNote"]}
{"id": "C103", "title": "Which glyphs the writer accepts", "statement": "writeGlyphToString with validation accepts exactly the following glyphs, in every other case it raises an exception. The name is a non-empty text; width and height are numbers or None; unicodes is an integer or holds integers only; a true note is a text; a true lib is a valid glyph lib of values that property lists have. In format 2 a true image is a valid image, true guidelines and anchors are lists of valid guidelines and anchors, and no identifier occurs twice in the guidelines, the anchors and the drawing; in format 1 images and guidelines are ignored, and anchors are valid, of which each is drawn as a contour of one move. The drawing calls are in a legal order: points and endPath only in a contour; a move only as the first point; no off-curve point before a line, at most two before a curve and none at the end of an open contour; no smooth off-curve points; coordinates and component transformations are numbers; identifiers are valid. All texts that are written consist of characters of XML 1.0.", "quantifier": "every glyph object, every name and every sequence of calls to the pen", "why_tests_cant": "all values and all sequences of calls; a check that is missing, or that refuses too much, is a single hole in an unbounded space", "anchors": ["Lib/ufoLib/glifLib.py:writeGlyphToString", "Lib/ufoLib/glifLib.py:_writeAdvance", "Lib/ufoLib/glifLib.py:_writeUnicodes", "Lib/ufoLib/glifLib.py:_writeNote", "Lib/ufoLib/glifLib.py:_writeImage", "Lib/ufoLib/glifLib.py:_writeGuidelines", "Lib/ufoLib/glifLib.py:_writeAnchors", "Lib/ufoLib/glifLib.py:_writeAnchorsFormat1", "Lib/ufoLib/glifLib.py:_writeLib", "Lib/ufoLib/glifLib.py:GLIFPointPen.beginPath", "Lib/ufoLib/glifLib.py:GLIFPointPen.endPath", "Lib/ufoLib/glifLib.py:GLIFPointPen.addPoint", "Lib/ufoLib/glifLib.py:GLIFPointPen.addComponent"]}
{"id": "C104", "title": "Which font info can be written to each version", "statement": "UFOWriter.writeInfo with validation accepts an info object for UFO 3 exactly if each attribute of UFO 3 that is set (and not None) has the type and range documented for it; for UFO 2, and likewise for UFO 1, exactly if each attribute of UFO 2 that is set has the type and range of UFO 2, in which versionMinor may be negative, unitsPerEm, openTypeHeadLowestRecPPEM and the metrics of the hhea, OS/2 and vhea tables may be any numbers and openTypeOS2Panose any ten integers. Attributes that a version does not have are never a reason to refuse. validateFontInfoVersion2ValueForAttribute and validateFontInfoVersion3ValueForAttribute decide the same types. A date is one of the form YYYY/MM/DD HH:MM:SS whose parts are read by int as a day and a time of the Gregorian calendar.", "quantifier": "every info object, every attribute and every value", "why_tests_cant": "all values of all types: a wrong entry of the tables of types is visible only for some values of one attribute", "anchors": ["Lib/ufoLib/__init__.py:UFOWriter.writeInfo", "Lib/ufoLib/__init__.py:validateFontInfoVersion2ValueForAttribute", "Lib/ufoLib/__init__.py:validateFontInfoVersion3ValueForAttribute", "Lib/ufoLib/__init__.py:validateInfoVersion2Data", "Lib/ufoLib/__init__.py:_convertFontInfoDataVersion3ToVersion2", "Lib/ufoLib/__init__.py:_convertFontInfoDataVersion2ToVersion1", "Lib/ufoLib/validators.py:fontInfoOpenTypeHeadCreatedValidator", "Lib/ufoLib/validators.py:fontInfoVersion2OpenTypeOS2PanoseValidator"]}
{"id": "C105", "title": "What can be read from a UFO 3", "statement": "With validation, each part of a UFO 3 can be read exactly if its file is missing where that is allowed, or holds what the specification asks for, and what is read is the content of the file. groups.plist: a dictionary of named lists, kerning groups with a name after the prefix and texts only, no glyph twice in the groups of one side; kerning.plist: texts to texts to numbers, read as the dictionary of its pairs; lib.plist: text keys, public.glyphOrder a list of texts; fontinfo.plist: each known attribute has its documented type, unknown attributes are ignored; features.fea: UTF-8; layercontents.plist: the rule of the layers, read in order, the default layer is the one in the directory glyphs; contents.plist: names to files that exist in the layer directory; layerinfo.plist: a color and a lib; images: files in images that start like a PNG file. In every other case an exception is raised, for groups, kerning and lib UFOLibError. A missing groups, kerning, lib, fontinfo, contents or layerinfo file is read as an empty dictionary, missing features as an empty text.", "quantifier": "every UFO structure (tree of files) and every content of its files", "why_tests_cant": "acceptance and refusal for all contents of the files", "anchors": ["Lib/ufoLib/__init__.py:UFOReader.readGroups", "Lib/ufoLib/__init__.py:UFOReader.readKerning", "Lib/ufoLib/__init__.py:UFOReader.readLib", "Lib/ufoLib/__init__.py:UFOReader.readInfo", "Lib/ufoLib/__init__.py:UFOReader.readFeatures", "Lib/ufoLib/__init__.py:UFOReader._readLayerContents", "Lib/ufoLib/__init__.py:UFOReader.getLayerNames", "Lib/ufoLib/__init__.py:UFOReader.getDefaultLayerName", "Lib/ufoLib/__init__.py:UFOReader.getGlyphSet", "Lib/ufoLib/__init__.py:UFOReader.readImage", "Lib/ufoLib/__init__.py:UFOReader.getImageDirectoryListing", "Lib/ufoLib/glifLib.py:GlyphSet.rebuildContents", "Lib/ufoLib/glifLib.py:GlyphSet.readLayerInfo"]}
{"id": "C106", "title": "Which groups and kerning of an older UFO can be read", "statement": "With validation, a UFOReader of a UFO 1 or 2 whose groups.plist maps texts to lists of texts and whose kerning.plist maps texts to dictionaries with text keys reads the groups exactly if no group has an empty name, no kerning group has the bare prefix of its side as its name, and no glyph occurs twice in the groups of the first side or twice in those of the second side (the groups of a side are those named @MMK_L_... or @MMK_R_... and those used in the kerning on this side); otherwise it raises UFOLibError. It reads the kerning exactly if all values are numbers. With any other groups.plist both raise UFOLibError, with any other kerning.plist both raise an exception.", "quantifier": "every content of both files and every order in which Python iterates over sets", "why_tests_cant": "all groups and all kerning", "anchors": ["Lib/ufoLib/__init__.py:UFOReader.readGroups", "Lib/ufoLib/__init__.py:UFOReader.readKerning", "Lib/ufoLib/__init__.py:UFOReader._upConvertKerning", "Lib/ufoLib/converters.py:convertUFO1OrUFO2KerningToUFO3Kerning", "Lib/ufoLib/validators.py:groupsValidator", "Lib/ufoLib/validators.py:kerningValidator"]}
{"id": "C107", "title": "Groups and kerning written to an older UFO are read again as they were", "statement": "A UFOWriter of version 1 or 2 accepts every valid groups dictionary and every kerning whose values are numbers. If no group is named @MMK_L_... or @MMK_R_... and the groups used in the kerning have the prefix of their side, a UFOReader of the result reads exactly these groups and this kerning, and its rename maps are empty. If the groups and the kerning were read from a UFO 1 or 2 and the rename maps of that reader are given to setKerningGroupConversionRenameMaps first, then the files written hold exactly the groups and the kerning, under the names, of the files that were read.", "quantifier": "every groups and kerning, every writer (new or existing file) and every order in which Python iterates over sets", "why_tests_cant": "a round trip for all groups, kerning and names of groups", "anchors": ["Lib/ufoLib/__init__.py:UFOWriter.writeGroups", "Lib/ufoLib/__init__.py:UFOWriter.writeKerning", "Lib/ufoLib/__init__.py:UFOWriter.setKerningGroupConversionRenameMaps", "Lib/ufoLib/__init__.py:UFOReader.readGroups", "Lib/ufoLib/__init__.py:UFOReader.readKerning", "Lib/ufoLib/__init__.py:UFOReader.getKerningGroupConversionRenameMaps", "Lib/ufoLib/converters.py:convertUFO1OrUFO2KerningToUFO3Kerning"]}
{"id": "C108", "title": "The options of plistlib", "statement": "totree and dumps write an object exactly if it stands for a value that they write by default, and then exactly like it: Data objects and bytearrays stand for bytes whatever the options; with use_builtin_types=False bytes stand for the text of the same ASCII characters and other bytes raise ValueError; with skipkeys=True entries whose keys are no texts are left out at every depth, without it they raise TypeError; with sort_keys as well a dictionary with both kinds of keys raises TypeError. fromtree and loads with use_builtin_types=False read exactly what they read by default, with a Data object in the place of bytes. Data.fromBase64 undoes Data.asBase64 for every line length and indentation. readPlistFromString and writePlistToString are loads and dumps with use_builtin_types=False.", "quantifier": "every object, every tree and file, every combination of the options", "why_tests_cant": "all values at every depth and all combinations of options", "anchors": ["Lib/ufoLib/plistlib.py:totree", "Lib/ufoLib/plistlib.py:fromtree", "Lib/ufoLib/plistlib.py:loads", "Lib/ufoLib/plistlib.py:dumps", "Lib/ufoLib/plistlib.py:Data", "Lib/ufoLib/plistlib.py:_dict_element", "Lib/ufoLib/plistlib.py:_string_or_data_element", "Lib/ufoLib/plistlib.py:readPlistFromString", "Lib/ufoLib/plistlib.py:writePlistToString"]}
{"id": "C109", "title": "Font info through an older UFO", "statement": "Font info that writeInfo accepts for UFO 3 it accepts for UFO 2 and UFO 1 as well. Read from the fontinfo.plist of the UFO 2 it has exactly the attributes of UFO 2 that were set, each with the value it had; read from that of the UFO 1 it has exactly the attributes of UFO 1 that were set, under their names of UFO 3, each with a value equal to the one it had. Neither is refused.", "quantifier": "every info object whose values a property list can store, every state of the UFO, every iteration order of the attributes of UFO 1", "why_tests_cant": "all values of all attributes in all combinations, through a conversion in each direction and a file", "anchors": ["Lib/ufoLib/__init__.py:UFOWriter.writeInfo", "Lib/ufoLib/__init__.py:UFOReader.readInfo", "Lib/ufoLib/__init__.py:convertFontInfoValueForAttributeFromVersion2ToVersion1", "Lib/ufoLib/__init__.py:convertFontInfoValueForAttributeFromVersion1ToVersion2", "Lib/ufoLib/__init__.py:convertFontInfoValueForAttributeFromVersion2ToVersion3", "Lib/ufoLib/__init__.py:_convertFontInfoDataVersion3ToVersion2"]}
{"id": "C110", "title": "A glyph read in parts", "statement": "What readGlyph and readGlyphFromString set on the glyph object is the same with and without a point pen, and what they draw is the same with and without a glyph object. A document is accepted with both exactly if it is accepted with the glyph object alone and with the pen alone and, when validating, no contour, point or component has the identifier of a guideline or anchor. Without a glyph object nothing is set, without a pen nothing is drawn.", "quantifier": "every document, every list of format versions, with and without validation", "why_tests_cant": "all documents, in four ways of reading", "anchors": ["Lib/ufoLib/glifLib.py:readGlyphFromString", "Lib/ufoLib/glifLib.py:GlyphSet.readGlyph", "Lib/ufoLib/glifLib.py:_readGlyphFromTree", "Lib/ufoLib/glifLib.py:_readGlyphFromTreeFormat1", "Lib/ufoLib/glifLib.py:_readGlyphFromTreeFormat2", "Lib/ufoLib/glifLib.py:buildOutlineFormat1", "Lib/ufoLib/glifLib.py:buildOutlineFormat2"]}
{"id": "C111", "title": "Which font info of an older UFO can be read", "statement": "With validation, a dictionary in the fontinfo.plist of a UFO 2 is read exactly if each attribute of UFO 2 that is set fits: one that is an integer in UFO 3 has a finite number that is no float with a whole value; versionMinor a finite number that is no float with a whole value of zero or more; openTypeHeadLowestRecPPEM, openTypeOS2WinAscent and openTypeOS2WinDescent have any finite number; every other attribute has a value of its type in UFO 3. One of a UFO 1 is read exactly if the value of each attribute of UFO 1 that is set (a weightValue of -1 is not) has a counterpart in UFO 2 that fits. Attributes of neither version do not matter.", "quantifier": "every dictionary with text keys, every iteration order of the attributes of UFO 1", "why_tests_cant": "all values of all attributes in all combinations", "anchors": ["Lib/ufoLib/__init__.py:UFOReader.readInfo", "Lib/ufoLib/__init__.py:convertFontInfoValueForAttributeFromVersion1ToVersion2", "Lib/ufoLib/__init__.py:convertFontInfoValueForAttributeFromVersion2ToVersion3", "Lib/ufoLib/__init__.py:_convertFontInfoDataVersion1ToVersion2", "Lib/ufoLib/__init__.py:_convertFontInfoDataVersion2ToVersion3", "Lib/ufoLib/__init__.py:validateInfoVersion3Data"]}
{"id": "C112", "title": "Which font data a UFOWriter accepts", "statement": "A validating UFOWriter of version 3 accepts exactly these data, in a new and in an existing UFO in which no directory is at the place of the file; groups, kerning, lib and features (not of version 1) also for an older version, as long as no names have been set for kerning groups. Groups: a dictionary from non-empty names to lists or tuples, whose kerning groups have a name after the prefix, hold texts only and share no glyph with another one of their side. Kerning: a dictionary from pairs of texts to numbers. Lib: a dictionary with text keys, whose public.glyphOrder is a list or tuple of texts. Features: a text without surrogates. Font info: every attribute that is set has its documented type. Layer info of a GlyphSet of version 3: the color, if set, is one, and the lib is a dictionary or empty. All of it except the features must consist of what plistlib writes: texts and keys of characters that XML documents may have, booleans, integers from -2**63 to 2**64-1, floats, dates, bytes, and lists, tuples and dictionaries of these. Everything else raises an exception.", "quantifier": "every value, every state of the UFO, new and existing", "why_tests_cant": "all values at every depth", "anchors": ["Lib/ufoLib/glifLib.py:GlyphSet.writeLayerInfo", "Lib/ufoLib/__init__.py:UFOWriter.writeGroups", "Lib/ufoLib/__init__.py:UFOWriter.writeKerning", "Lib/ufoLib/__init__.py:UFOWriter.writeLib", "Lib/ufoLib/__init__.py:UFOWriter.writeFeatures", "Lib/ufoLib/__init__.py:UFOWriter.writeInfo", "Lib/ufoLib/__init__.py:_writePlist", "Lib/ufoLib/plistlib.py:dumps", "Lib/ufoLib/validators.py:groupsValidator", "Lib/ufoLib/validators.py:fontLibValidator"]}
{"id": "C113", "title": "Which calls on layers a UFOWriter accepts and what they do", "statement": "In a UFO 3 in which every layer has its directory, getGlyphSet makes an empty directory for a new layer, the default directory exactly if the default layer is asked for, and finds a layer that is there as it is; it refuses exactly a second default layer and a default layer that is there under another directory. renameGlyphSet accepts exactly a layer that is there, together with its own name or the name of no layer and, if it is to become the default layer under another name, no default layer at all; its directory moves with all it holds, everything else in the UFO stays. deleteGlyphSet accepts exactly a layer that is there and removes its directory and nothing else. writeLayerContents accepts exactly an order of all layers, whose names are characters of XML. A refused call changes nothing. All this holds again after every such call.", "quantifier": "every history of calls, every content of the UFO, every name, fewer than 10**15-3 layers", "why_tests_cant": "all histories and names; where each file of a layer ends up", "anchors": ["Lib/ufoLib/__init__.py:UFOWriter.getGlyphSet", "Lib/ufoLib/__init__.py:UFOWriter._getGlyphSetFormatVersion3", "Lib/ufoLib/__init__.py:UFOWriter.renameGlyphSet", "Lib/ufoLib/__init__.py:UFOWriter.deleteGlyphSet", "Lib/ufoLib/__init__.py:UFOWriter.writeLayerContents", "Lib/ufoLib/__init__.py:UFOWriter._findDirectoryForLayerName"]}
{"id": "C114", "title": "The images of a UFO behave like a dictionary", "statement": "After any sequence of writeImage, removeImage and copyImageFromReader calls with plain file names the images of a UFO 3 are those of a dictionary treated the same way. writeImage is refused exactly if it validates data that do not begin with the PNG signature, removeImage exactly if there is no such image, copyImageFromReader exactly if the other UFO has no such image or this one has one of the new name; a refused call raises UFOLibError and changes nothing. getImageDirectoryListing lists each image once, with validation those that are PNG files, and readImage gives its data. Nothing else in the UFO changes.", "quantifier": "every sequence of calls, every UFO whose images directory is missing or holds files only, every source that has no directory in place of the image", "why_tests_cant": "all histories, including refused calls and the removal of the directory with the last image", "anchors": ["Lib/ufoLib/__init__.py:UFOWriter.writeImage", "Lib/ufoLib/__init__.py:UFOWriter.removeImage", "Lib/ufoLib/__init__.py:UFOWriter.copyImageFromReader", "Lib/ufoLib/__init__.py:UFOReader.getImageDirectoryListing", "Lib/ufoLib/__init__.py:UFOReader.readImage"]}
{"id": "C115", "title": "The files in the data directory behave like a dictionary of paths", "statement": "After any sequence of writeBytesToPath, removePath (with its default arguments) and copyFromReader calls on paths below the data directory its files are those of a dictionary from paths to bytes treated the same way. Copying a directory copies all files below it. A write or a copy is refused exactly if a file would lie above or below another one, a copy also if there is something at the new path or nothing at the old one; removing a path removes all files below it and is refused exactly if there are none. A refused call changes nothing. getDataDirectoryListing lists each file once, readBytesFromPath gives its bytes, None where there is nothing. No empty directory is left behind and nothing outside the data directory changes.", "quantifier": "every sequence of calls, every UFO whose data directory is missing or has no empty directories, every source of files and directories without empty directories", "why_tests_cant": "all histories on nested paths, including refused calls and the removal of directories with their last file", "anchors": ["Lib/ufoLib/__init__.py:UFOWriter.writeBytesToPath", "Lib/ufoLib/__init__.py:UFOWriter.removePath", "Lib/ufoLib/__init__.py:UFOWriter.copyFromReader", "Lib/ufoLib/__init__.py:UFOReader.getDataDirectoryListing", "Lib/ufoLib/__init__.py:_readBytesFromPath"]}
