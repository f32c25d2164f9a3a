c("C15", "proved", "C15_precedence", "")
c("C16", "proved", "C16_order_and_maps_irrelevant C16_one_map_rejected", "validity enters as: no glyph in two groups of one side")
c("C17", "partial", "C17_no_reuse C17_distinct_refuted C17_distinct_partial",
  "existing names are never reused (proved); distinctness is false: converters.py 26/38 collect the old names of the renamed groups instead of the new ones; proved distinct for data without UFO 3 group names whose stripped names differ")
c("C18", "proved", "C18_values_preserved C18_nothing_else C18_merge_refuted", "the refutation shows the collision-free condition is needed")
c("C19", "proved", "C19_groups_kept", "")
c("C20", "proved", "C20_down_undoes_up C20_plain_data_merges_nothing", "")
c("C21", "proved", "C21_unique_name C21_free_name_kept", "")
c("C22", "proved", "C22_round_trip C22_no_empty_inner", "the file layer is added in C62/C24")
c("C07", "proved", "C07_read_your_writes", "for every state, so for every reachable one")
c("C08", "partial", "C08_distinct_files_refuted C08_distinct_files_partial C08_careful_function C08_lower_case_names_partial C08_apart_names_partial C08_simple_names",
  "false with the default function: glifLib.py 404-414 passes existing names that are not lower-cased, so 'A*' and 'A_' share 'A__.glif'; proved for every case-fresh file name function and, with the default one, for names without upper-case letters and for names whose own file names differ ignoring case, such as ASCII names without underscores")
c("C09", "partial", "C09_failed_write_refuted C09_failed_write_partial",
  "false for a new glyph: contents is extended before the glyph is generated; proved: no file and no other glyph changes, and contents is kept for glyphs already listed")
c("C10", "partial", "C10_listed_glyphs_exist_refuted C10_listed_glyphs_exist_partial C10_apart_names_partial C10_delete_refuted C10_delete_exactly",
  "false with the default file name function through C08, and when deleteGlyph raises (C10_delete_refuted: the file is gone, the glyph still listed); proved for case-fresh functions and for the default one with names apart (C08); a deleteGlyph that succeeds removes exactly the glyph")
c("C11", "partial", "C11_contents_round_trip_refuted C11_contents_round_trip_partial contents_codec_laws", "false for glyph names with a carriage return, which the XML parser turns into a line feed; proved for names and file names that are XML texts without carriage returns (contents_codec_laws: plistlib keeps these)")
c("C12", "partial", "C12_crash_after_delete_refuted C12_crash_while_writing_contents_refuted C12_crash_partial",
  "false after deleteGlyph and while contents.plist is first written; proved for sessions on an existing set without deletions")
c("C13", "proved", "C13_unchanged_not_rewritten", "")
c("C14", "proved", "C14_reverse_contents", "")
c("C30", "proved", "C30_layer_contents_rule C30_total", "existence of a directory is a parameter that may raise")
c("C40", "partial", "C40_real_dates_refuted C40_real_dates_partial",
  "false: int() accepts signs, underscores and white space, so '2000/+1/01 00:00:00' is accepted; exact for strings of digits, slashes, colons and spaces")
c("C41", "proved", "C41_identifier_rule", "")
c("C42", "partial", "C42_colors_refuted C42_colors_partial", "false: 'nan' is accepted; exact with NaN as the only exception")
c("C43", "proved", "C43_groups_rule", "")
c("C44", "proved", "C44_guidelines_unique C44_anchors_unique C44_complete", "")
c("C74", "proved", "C74_guideline_shape", "a NaN angle counts as neither below 0 nor above 360")
c("C75", "proved", "C75_kerning_rule", "")
c("C76", "proved", "C76_png_signature", "the data variant")
c("C73", "proved", "C73_case_kept_apart", "short means that doubling every character keeps the name within 255 characters; no existing names")
c("C33", "partial", "C33_name_round_trip_refuted C33_name_round_trip_partial", "false for an infinite float (OverflowError in int()); proved for every other value, where a whole float may come back as the equal int")
c("C34", "proved", "C34_idempotent", "")
c("C35", "partial", "C35_upgrade_refuted C35_upgrade_partial", "false for a negative unitsPerEm (__init__.py 2122 makes a set of letters), for whole floats in integer attributes (2158-2171 keeps the float) and for negative panose numbers; proved for all other valid data without infinities and NaN in the rounded attributes")
c("C36", "proved", "C36_written_to_2 C36_validated", "")
c("C37", "proved", "C37_file C37_round_trip", "through the file with plistlib for values property lists can hold, and for every encoder and decoder of the dictionary that round-trip it exactly")
c("C38", "partial", "C38_documented_types_refuted C38_documented_types_partial", "false as documented: bools pass for integers, floats for three integer attributes and the character set; proved for every attribute with these exceptions spelled out in the shapes (dates as in C40)")
c("C39", "partial", "C39_total_refuted C39_total_partial C39_glyph_lib", "false: a list inside a list of integers makes set() raise TypeError; proved for all other property list values (a None, which property lists can not contain, may also raise)")
c("C23", "partial", "C23_one_conversion_refuted C23_one_conversion_partial", "false: the cache is stored before the conversion (__init__.py 333-342), so after a conversion that raised the next call answers with empty data; proved when the kerning and groups at the time of each call can be converted")
c("C24", "proved", "C24_refused C24_no_damage C24_upgraded", "for every plist codec with the codec laws")
c("C25", "partial", "C25_no_loss_refuted C25_no_loss_partial", "false in a new UFO, where the file is truncated before the data is serialised (__init__.py 193-198); proved for an existing UFO")
c("C26", "partial", "C26_emptied_refuted C26_emptied_partial", "false in a new UFO: nothing is removed, so the file of an earlier call stays; proved for an existing UFO, for groups and kerning of UFO 1 and 2 when the other of the two files is readable and well-formed")
c("C27", "proved", "C27_unchanged_not_rewritten C27_only_target", "plist methods, writeFeatures and writeBytesToPath")
c("C31", "partial", "C31_refused C31_default_set_refuted C31_default_set_partial", "refusals proved in full; the default glyph set can not be obtained for UFO 1 (__init__.py 1411 passes a tuple); proved for UFO 2 and 3")
c("C32", "partial", "C32_images_refuted C32_images_partial", "false: names with '/' or '..' are accepted and escape the images directory; proved for plain names")
c("C68", "partial", "C68_extension_refuted C68_extension_partial", "false for a name without extension, which becomes '.ufo'; proved for the others")
c("C69", "partial", "C69_structure_refuted C69_structure_partial", "false: the string 'zip' (not the enum member) asks for a package on a new path; proved for the other arguments")
c("C70", "proved", "C70_character_mapping", "for the dictionary returned by getUnicodes, whose lists have no duplicates")
c("C71", "partial", "C71_read_back C71_write_succeeds C71_trailing_slash_refuted C71_remove", "proved; a path with a trailing slash fails after its directory was made")
c("C72", "partial", "C72_layer_info_refuted C72_layer_info_partial", "false in a new UFO, where stored layer info is not removed; proved for an existing one, and the round trip in general")
c("C77", "proved", "C77_features", "")
c("C78", "proved", "C78_read_back", "for every plist codec with the codec laws")
c("C79", "proved", "C79_copy C79_images", "copying a directory to a path ending in '..' is not modelled")
c("C80", "partial", "C80_listing_refuted C80_listing_partial", "false as documented: the paths are relative to the data directory; otherwise proved")
c("C28", "partial", "C28_apart_refuted C28_apart_partial", "false: renaming a layer to its own name with defaultLayer=True while another layer is the default maps both to 'glyphs'; every other history, also with calls that raise, is proved")
c("C29", "partial", "C29_accepted_refuted C29_accepted_partial", "false for an order with repeated names, an empty layer name, a non-default layer called public.default and two layers in one directory; proved after every other history of successful calls")
c("C45", "proved", "C45_reverse_twice C45_loose_points_dropped", "a closed contour has no 'move' point")
c("C46", "proved", "C46_reversed_closed C46_reversed_open", "off-curve points at the end of an open contour are dropped; a closed contour starting with an off-curve point comes back rotated by one segment")
c("C47", "partial", "C47_round_trip_refuted C47_round_trip_partial", "false for a closed contour of a single point (comes back open) and for a contour without on-curve points whose last point equals its first (loses a point); proved for every other sequence of contours and components, with and without smooth guessing and implied closing lines")
c("C48", "proved", "C48_smooth_flags_only", "contours drawn without identifier (its beginPath takes none); the comparison of directions is a parameter")
c("C49", "proved", "C49_segments C49_points_once", "for contours with the structure the GLIF reader checks")
c("C81", "partial", "C81_version_refuted C81_version_partial C81_no_images", "false when metainfo.plist has no formatVersion: KeyError instead of UFOLibError; otherwise proved")
c("C60", "partial", "C60_round_trip_refuted C60_round_trip_partial C60_file_partial C60_file_refuted plist_codec_laws", "false for element trees of objects with bytes when the standard library's ElementTree is used: fromtree raises TypeError; proved for all others. Through a file (dumps, loads) proved for all objects, bytes included, whose texts have no carriage return, which comes back as a line feed")
c("C61", "proved", "C61_data C61_lines", "")
c("C62", "proved", "C62_dates", "")
c("C63", "proved", "C63_order", "also which exception is raised")
c("C64", "proved", "C64_range C64_inside", "")
c("C65", "partial", "C65_escaping_partial C65_refuted C65_refused", "false for carriage returns and, in attribute values, tabulators, which are not escaped; proved for all other XML texts; texts that are no XML are refused")
c("C66", "partial", "C66_parse_back_partial C66_refuted", "names of elements and attributes are not checked by the serializer; proved for ASCII names without namespaces and texts without the characters of C65")
c("C67", "proved", "C67_pretty C67_idempotent C67_file", "")
c("C50", "partial", "C50_outlines_partial C50_refuted", "false: the pen accepts curves and off-curve runs that the reader rejects at the wrap-around of a contour; proved: a written GLIF 2 outline is readable if and only if every contour follows the documented rule (numbers that are no booleans, texts of C65)")
c("C51", "proved", "C51_unicodes", "both formats, every list of integers, names XML can carry")
c("C52", "proved", "C52_note C52_unique", "both formats; notes of characters XML carries unchanged")
c("C53", "partial", "C53_attributes_partial C53_refuted", "false for a boolean width, which is written as 'True' and refused by the reader; proved for glyphs without booleans as numbers and with texts of C65, an advance of zero being the same as none and image numbers equal to their default coming back as the default")
c("C54", "partial", "C54_outline_partial C54_refuted", "false for texts with tabulators, see C65; proved for all other outlines accepted by the reader")
c("C55", "proved", "C55_identifiers", "both formats, unmodified document bytes")
c("C56", "partial", "C56_format1_partial C56_anchors_partial C56_refuted", "false with identifiers, which the pen writes although GLIF 1 readers refuse them, and for single named move points, which come back as anchors; proved for outlines without identifiers, and the anchors")
c("C57", "partial", "C57_fetch_partial C57_written C57_written_1 C57_refuted", "false for glyph or outline elements inside a note, which the fetchers take into account; proved for all other documents and for every written file")
c("C58", "partial", "C58_glyph_partial C58_refuted", "false for names with tabulators, see C65; proved for all valid glyphs with the exceptions of C50, C53 and C65")
c("C59", "proved", "C59_read C59_accepts C59_write", "")
c("C82", "partial", "C82_document_partial C82_read_write_read_partial C82_document_refuted", "false for carriage returns spelled as character references, which the writer does not escape, and for integers beyond 64 bits in the lib, which can be read but not written; proved for every document that gives no tab or carriage return by number, with integers in range, and for every reading with texts that XML carries unchanged")
c("C83", "proved", "C83_outlines", "both formats")
c("C84", "partial", "C84_refuted C84_rebuild_refuted C84_sessions_partial C84_lower_case_names_partial C84_apart_names_partial contents_codec_laws contents_total", "false with the default file name function (C08) and when rebuildContents is called while contents.plist still lists a deleted glyph whose file name is used again; proved for case-fresh file name functions, and for the default one with names without upper-case letters or names that are apart (C08), for sessions without rebuildContents on an unsaved set")
c("C85", "partial", "C85_glyphs_partial C85_careful C85_lower_case_names_partial C85_apart_names_partial", "as C84; glyphs that GLIF 2 or 1 can store as in C58 and C56")
c("C86", "partial", "C86_references_partial C86_lower_case_names_partial C86_apart_names_partial", "as C85")
c("C87", "partial", "C87_fromtree_partial C87_document_partial C87_empty_key_refuted", "false for empty keys, which the reader takes for no key; proved for trees of property list elements without empty keys")
c("C88", "partial", "C88_empty_refuted C88_names_refuted C88_fonts_partial C88_careful C88_lower_case_names_partial C88_apart_names_partial", "false where C84 is (default file name function, rebuildContents), and when an empty part is written over one that the same writer wrote before, or a layer is made the default layer under its own name beside another one (C28); proved for all other sequences of calls on a case-sensitive file system with texts and values of C60, C85 and C37, one glyph set object for each layer")
c("C89", "partial", "C89_like_package C89_until_close C89_refused C89_close_twice_refuted", "proved, for creators that can be written; false for a second close() of an archive that existed before: it replaces the archive by one with an empty root directory")
c("C90", "partial", "C90_file_objects_partial C90_reading C90_returned_error_refuted C90_text C90_text_refused", "false when a directory is at the path (or, in mode 'x', anything): line 1040 returns the UFOLibError instead of raising it; otherwise proved, in binary mode and, for UTF-8, in text mode")
c("C91", "partial", "C91_glif C91_nameless_anchor_refuted C91_glyph_sets_partial C91_careful C91_apart_names_partial", "proved for the outlines of C47 (it is false for the others) and the glyph sets and names of C85, in GLIF 1 for glyphs whose anchors have names; an anchor without a name comes back as a drawn point")
c("C92", "partial", "C92_mapping_partial C92_apart_names_partial", "as C85")
c("C93", "partial", "C93_shape C93_tree C93_again_partial C93_again_refuted", "the shape is proved; writing is false for documents without a value (None), integers beyond 64 bits and texts with carriage returns spelled as character references; proved for all others that give no tab or carriage return by number")
c("C94", "partial", "C94_glif_reading C94_glif_writing_partial C94_glif_writing_refuted C94_sessions C94_readers C94_listing C94_listing_refuted", "false for a number as the unicodes of a glyph, which only validation turns into a list, and for getImageDirectoryListing, from which validation leaves out files that are no PNG images; proved for everything else, writing GLIF for libs without tuples as keys")
c("C95", "partial", "C95_fontinfo_accepts C95_fontinfo_exact_partial C95_guidelines C95_anchors C95_images C95_lists C95_libs C95_layer_info", "proved exactly, except that openTypeHeadCreated also accepts dates in which int() reads something else than digits (C40)")
c("C96", "partial", "C96_never_refused_partial C96_careful_partial C96_apart_names_partial C96_opening_again_refuted", "proved for all sequences of the calls of C88 (rebuilding the contents excepted) with fewer than 10^15-3 names, on the file systems and with the texts and values of C88; a layer is opened once by a writer: opening it again after deleting one of its glyphs is refused")
c("C97", "partial", "C97_save_as_partial C97_careful_partial C97_apart_names_partial C97_documents_partial C97_all_refuted", "proved for UFOs whose XML documents give no tab or carriage return by number, integers of 64 bits, names of glyphs without tabs, fewer than 10^15-3 names; glyphs get the names of contents.plist; false for a lib with an integer beyond 64 bits, which is read and can not be written")
c("C98", "partial", "C98_in_place_partial C98_careful_partial C98_apart_names_partial C98_unlisted_refuted", "proved for UFOs whose layer directories hold files only, with file names that differ in more than case, without directories of layers that are not listed, without images that are no PNG files and without empty directories in data; false with an unlisted layer directory: a new layer is given it together with the glyphs in there")
c("C99", "proved", "C99_from_version_2 C99_from_version_2_refused C99_from_version_1 C99_from_version_1_refused C99_to_version_1 C99_to_version_1_validated", "the refusals are stated for validate=False; a NaN or infinity in a UFO 1 raises ValueError or OverflowError, an infinity in a UFO 2 OverflowError, an unhashable fontStyle TypeError")
c("C100", "partial", "C100_unsaved_partial C100_careful_partial C100_apart_names_partial C100_glyph_deletion_refuted C100_layer_deletion_refuted C100_layer_renaming_refuted", "false after an unsaved deletion of a glyph (none of its layer is read) and after an unsaved deletion or renaming of a layer (no layer is read); proved for all other calls of C88, for programs that end between two calls")
c("C101", "partial", "C101_upgrade_partial C101_careful_partial C101_apart_names_partial C101_abandoned_refuted C101_info_refuted C101_kerning_refuted", "proved with the parts given back, for older UFOs as in C98 without images directory, layercontents.plist and other layer directories; the last sentence is false: every UFO 1 or 2 that has glyphs is unreadable for a UFOReader until layercontents.plist is written, and without giving the parts back the info may be refused and the kerning groups lose their meaning")
c("C102", "proved", "C102_documents", "as an equivalence for both formats; also accepted, and stated so: text in contours and between elements, and in format 1 any other attributes of the contour and the point of an anchor")
c("C103", "proved", "C103_writer", "as an equivalence for both formats, for the validating writer; assumes that repr of floats consists of characters of XML 1.0 and that no dictionary has a key twice; also accepted, and stated so: booleans as numbers, bytes and dictionaries as unicodes, segment types that are unknown, a contour begun while another is open")
c("C104", "proved", "C104_write C104_version_2 C104_version_3 C104_dates", "as equivalences; the types are those of C38 with its exceptions (booleans are integers); assumes that no dictionary in the info object has a key twice")
c("C105", "proved", "C105_groups C105_kerning C105_lib C105_info C105_features C105_layers C105_glyph_set C105_layer_info C105_images", "as equivalences, for every parser of property lists; kerning and font info assume that no dictionary has a key twice; the types of font info are those of C104")
c("C106", "partial", "C106_old_partial C106_other_files C106_merged_refuted", "proved for groups without the prefixes of UFO 3 whose names differ without the prefix of their side; false otherwise: two groups that become one are read although they share a glyph; for the first reading of a reader")
c("C107", "partial", "C107_written_partial C107_given_back_partial C107_written_refuted C107_given_back_refuted", "proved for names that mean the same in both versions; false otherwise: a group named @MMK_L_x comes back with a second one, and two groups that become one lose the kerning of one of them")
c("C108", "proved", "C108_written C108_read C108_round_trip_partial C108_base64", "both directions exactly; the round trip through a file for texts without carriage returns, as in C60")
c("C109", "partial", "C109_to_2_partial C109_to_1_partial C109_to_2_refuted C109_to_1_refuted", "through the property list file; proved for UFO 2 if openTypeHeadLowestRecPPEM, openTypeOS2WinAscent and openTypeOS2WinDescent are whole numbers, and for UFO 1 if no value is an infinity or NaN; false otherwise: UFO 3 accepts such values, the conversion rounds 1.5 to 2 and raises for NaN and infinities")
c("C110", "proved", "C110_parts C110_left_out", "as an equivalence for both formats, for documents given as bytes; a validated reading with one part left out sees less, which is stated so")
c("C111", "proved", "C111_values C111_values_1 C111_version_2 C111_version_1", "as equivalences; the types are those of C104; assumes that no dictionary has a key twice; that floats with whole values are refused where 750.5 is accepted is what the code does, see C35")
c("C112", "proved", "C112_dumps C112_groups C112_kerning C112_lib C112_features C112_info C112_layer_info", "as equivalences; assumes that repr of floats consists of characters of XML 1.0 and, for kerning and font info, that no dictionary has a key twice; the types of font info are those of C104")
c("C113", "partial", "C113_delete C113_delete_none_refuted C113_rename_partial C113_rename_none C113_new_layer C113_old_layer C113_other_default C113_no_name C113_histories_partial C113_order", "false for deleteGlyphSet(None), which removes the files of the default layer and then raises KeyError, and for making a layer the default layer under its own name beside another one (C28); proved for all other calls and histories")
c("C114", "proved", "C114_step C114_found C114_histories", "as a refinement of a function from names to data, one call at a time and for histories")
c("C115", "proved", "C115_step C115_found C115_histories C115_start C115_with_images", "as a refinement of a dictionary of paths, one call at a time and for histories, also mixed with calls on images; components of paths are plain names")
