{
 "claims": [
  {
   "property": "C01",
   "status": "proved",
   "theorems": [
    "C01_no_clash"
   ],
   "note": "any lower-casing function, any existing list"
  },
  {
   "property": "C02",
   "status": "proved",
   "theorems": [
    "C02_legal_characters"
   ],
   "note": ""
  },
  {
   "property": "C03",
   "status": "partial",
   "theorems": [
    "C03_length_refuted",
    "C03_length_partial"
   ],
   "note": "false as stated: reserved parts are escaped after clipping (witness of 317 characters); proved: the excess over 255 is at most the number of escaped parts"
  },
  {
   "property": "C04",
   "status": "proved",
   "theorems": [
    "C04_not_reserved",
    "C04_not_hidden"
   ],
   "note": ""
  },
  {
   "property": "C05",
   "status": "proved",
   "theorems": [
    "C05_terminates",
    "C05_always_succeeds",
    "C05_empty_name_refuted"
   ],
   "note": "the excluded empty name really raises IndexError"
  },
  {
   "property": "C06",
   "status": "proved",
   "theorems": [
    "C06_batch_distinct"
   ],
   "note": ""
  },
  {
   "property": "C15",
   "status": "proved",
   "theorems": [
    "C15_precedence"
   ],
   "note": ""
  },
  {
   "property": "C16",
   "status": "proved",
   "theorems": [
    "C16_order_and_maps_irrelevant",
    "C16_one_map_rejected"
   ],
   "note": "validity enters as: no glyph in two groups of one side"
  },
  {
   "property": "C17",
   "status": "partial",
   "theorems": [
    "C17_no_reuse",
    "C17_distinct_refuted",
    "C17_distinct_partial"
   ],
   "note": "existing names are never reused (proved); distinctness is false: converters.py 26/38 collect the old names of the renamed groups instead of the new ones; proved distinct for data without UFO 3 group names whose stripped names differ"
  },
  {
   "property": "C18",
   "status": "proved",
   "theorems": [
    "C18_values_preserved",
    "C18_nothing_else",
    "C18_merge_refuted"
   ],
   "note": "the refutation shows the collision-free condition is needed"
  },
  {
   "property": "C19",
   "status": "proved",
   "theorems": [
    "C19_groups_kept"
   ],
   "note": ""
  },
  {
   "property": "C20",
   "status": "proved",
   "theorems": [
    "C20_down_undoes_up",
    "C20_plain_data_merges_nothing"
   ],
   "note": ""
  },
  {
   "property": "C21",
   "status": "proved",
   "theorems": [
    "C21_unique_name",
    "C21_free_name_kept"
   ],
   "note": ""
  },
  {
   "property": "C22",
   "status": "proved",
   "theorems": [
    "C22_round_trip",
    "C22_no_empty_inner"
   ],
   "note": "the file layer is added in C62/C24"
  },
  {
   "property": "C07",
   "status": "proved",
   "theorems": [
    "C07_read_your_writes"
   ],
   "note": "for every state, so for every reachable one"
  },
  {
   "property": "C08",
   "status": "partial",
   "theorems": [
    "C08_distinct_files_refuted",
    "C08_distinct_files_partial",
    "C08_careful_function",
    "C08_lower_case_names_partial",
    "C08_apart_names_partial",
    "C08_simple_names"
   ],
   "note": "false with the default function: glifLib.py 404-414 passes existing names that are not lower-cased, so 'A*' and 'A_' share 'A__.glif'; proved for every case-fresh file name function and, with the default one, for names without upper-case letters and for names whose own file names differ ignoring case, such as ASCII names without underscores"
  },
  {
   "property": "C09",
   "status": "partial",
   "theorems": [
    "C09_failed_write_refuted",
    "C09_failed_write_partial"
   ],
   "note": "false for a new glyph: contents is extended before the glyph is generated; proved: no file and no other glyph changes, and contents is kept for glyphs already listed"
  },
  {
   "property": "C10",
   "status": "partial",
   "theorems": [
    "C10_listed_glyphs_exist_refuted",
    "C10_listed_glyphs_exist_partial",
    "C10_apart_names_partial",
    "C10_delete_refuted",
    "C10_delete_exactly"
   ],
   "note": "false with the default file name function through C08, and when deleteGlyph raises (C10_delete_refuted: the file is gone, the glyph still listed); proved for case-fresh functions and for the default one with names apart (C08); a deleteGlyph that succeeds removes exactly the glyph"
  },
  {
   "property": "C11",
   "status": "partial",
   "theorems": [
    "C11_contents_round_trip_refuted",
    "C11_contents_round_trip_partial",
    "contents_codec_laws"
   ],
   "note": "false for glyph names with a carriage return, which the XML parser turns into a line feed; proved for names and file names that are XML texts without carriage returns (contents_codec_laws: plistlib keeps these)"
  },
  {
   "property": "C12",
   "status": "partial",
   "theorems": [
    "C12_crash_after_delete_refuted",
    "C12_crash_while_writing_contents_refuted",
    "C12_crash_partial"
   ],
   "note": "false after deleteGlyph and while contents.plist is first written; proved for sessions on an existing set without deletions"
  },
  {
   "property": "C13",
   "status": "proved",
   "theorems": [
    "C13_unchanged_not_rewritten"
   ],
   "note": ""
  },
  {
   "property": "C14",
   "status": "proved",
   "theorems": [
    "C14_reverse_contents"
   ],
   "note": ""
  },
  {
   "property": "C30",
   "status": "proved",
   "theorems": [
    "C30_layer_contents_rule",
    "C30_total"
   ],
   "note": "existence of a directory is a parameter that may raise"
  },
  {
   "property": "C40",
   "status": "partial",
   "theorems": [
    "C40_real_dates_refuted",
    "C40_real_dates_partial"
   ],
   "note": "false: int() accepts signs, underscores and white space, so '2000/+1/01 00:00:00' is accepted; exact for strings of digits, slashes, colons and spaces"
  },
  {
   "property": "C41",
   "status": "proved",
   "theorems": [
    "C41_identifier_rule"
   ],
   "note": ""
  },
  {
   "property": "C42",
   "status": "partial",
   "theorems": [
    "C42_colors_refuted",
    "C42_colors_partial"
   ],
   "note": "false: 'nan' is accepted; exact with NaN as the only exception"
  },
  {
   "property": "C43",
   "status": "proved",
   "theorems": [
    "C43_groups_rule"
   ],
   "note": ""
  },
  {
   "property": "C44",
   "status": "proved",
   "theorems": [
    "C44_guidelines_unique",
    "C44_anchors_unique",
    "C44_complete"
   ],
   "note": ""
  },
  {
   "property": "C74",
   "status": "proved",
   "theorems": [
    "C74_guideline_shape"
   ],
   "note": "a NaN angle counts as neither below 0 nor above 360"
  },
  {
   "property": "C75",
   "status": "proved",
   "theorems": [
    "C75_kerning_rule"
   ],
   "note": ""
  },
  {
   "property": "C76",
   "status": "proved",
   "theorems": [
    "C76_png_signature"
   ],
   "note": "the data variant"
  },
  {
   "property": "C73",
   "status": "proved",
   "theorems": [
    "C73_case_kept_apart"
   ],
   "note": "short means that doubling every character keeps the name within 255 characters; no existing names"
  },
  {
   "property": "C33",
   "status": "partial",
   "theorems": [
    "C33_name_round_trip_refuted",
    "C33_name_round_trip_partial"
   ],
   "note": "false for an infinite float (OverflowError in int()); proved for every other value, where a whole float may come back as the equal int"
  },
  {
   "property": "C34",
   "status": "proved",
   "theorems": [
    "C34_idempotent"
   ],
   "note": ""
  },
  {
   "property": "C35",
   "status": "partial",
   "theorems": [
    "C35_upgrade_refuted",
    "C35_upgrade_partial"
   ],
   "note": "false for a negative unitsPerEm (__init__.py 2122 makes a set of letters), for whole floats in integer attributes (2158-2171 keeps the float) and for negative panose numbers; proved for all other valid data without infinities and NaN in the rounded attributes"
  },
  {
   "property": "C36",
   "status": "proved",
   "theorems": [
    "C36_written_to_2",
    "C36_validated"
   ],
   "note": ""
  },
  {
   "property": "C37",
   "status": "proved",
   "theorems": [
    "C37_file",
    "C37_round_trip"
   ],
   "note": "through the file with plistlib for values property lists can hold, and for every encoder and decoder of the dictionary that round-trip it exactly"
  },
  {
   "property": "C38",
   "status": "partial",
   "theorems": [
    "C38_documented_types_refuted",
    "C38_documented_types_partial"
   ],
   "note": "false as documented: bools pass for integers, floats for three integer attributes and the character set; proved for every attribute with these exceptions spelled out in the shapes (dates as in C40)"
  },
  {
   "property": "C39",
   "status": "partial",
   "theorems": [
    "C39_total_refuted",
    "C39_total_partial",
    "C39_glyph_lib"
   ],
   "note": "false: a list inside a list of integers makes set() raise TypeError; proved for all other property list values (a None, which property lists can not contain, may also raise)"
  },
  {
   "property": "C23",
   "status": "partial",
   "theorems": [
    "C23_one_conversion_refuted",
    "C23_one_conversion_partial"
   ],
   "note": "false: the cache is stored before the conversion (__init__.py 333-342), so after a conversion that raised the next call answers with empty data; proved when the kerning and groups at the time of each call can be converted"
  },
  {
   "property": "C24",
   "status": "proved",
   "theorems": [
    "C24_refused",
    "C24_no_damage",
    "C24_upgraded"
   ],
   "note": "for every plist codec with the codec laws"
  },
  {
   "property": "C25",
   "status": "partial",
   "theorems": [
    "C25_no_loss_refuted",
    "C25_no_loss_partial"
   ],
   "note": "false in a new UFO, where the file is truncated before the data is serialised (__init__.py 193-198); proved for an existing UFO"
  },
  {
   "property": "C26",
   "status": "partial",
   "theorems": [
    "C26_emptied_refuted",
    "C26_emptied_partial"
   ],
   "note": "false in a new UFO: nothing is removed, so the file of an earlier call stays; proved for an existing UFO, for groups and kerning of UFO 1 and 2 when the other of the two files is readable and well-formed"
  },
  {
   "property": "C27",
   "status": "proved",
   "theorems": [
    "C27_unchanged_not_rewritten",
    "C27_only_target"
   ],
   "note": "plist methods, writeFeatures and writeBytesToPath"
  },
  {
   "property": "C31",
   "status": "partial",
   "theorems": [
    "C31_refused",
    "C31_default_set_refuted",
    "C31_default_set_partial"
   ],
   "note": "refusals proved in full; the default glyph set can not be obtained for UFO 1 (__init__.py 1411 passes a tuple); proved for UFO 2 and 3"
  },
  {
   "property": "C32",
   "status": "partial",
   "theorems": [
    "C32_images_refuted",
    "C32_images_partial"
   ],
   "note": "false: names with '/' or '..' are accepted and escape the images directory; proved for plain names"
  },
  {
   "property": "C68",
   "status": "partial",
   "theorems": [
    "C68_extension_refuted",
    "C68_extension_partial"
   ],
   "note": "false for a name without extension, which becomes '.ufo'; proved for the others"
  },
  {
   "property": "C69",
   "status": "partial",
   "theorems": [
    "C69_structure_refuted",
    "C69_structure_partial"
   ],
   "note": "false: the string 'zip' (not the enum member) asks for a package on a new path; proved for the other arguments"
  },
  {
   "property": "C70",
   "status": "proved",
   "theorems": [
    "C70_character_mapping"
   ],
   "note": "for the dictionary returned by getUnicodes, whose lists have no duplicates"
  },
  {
   "property": "C71",
   "status": "partial",
   "theorems": [
    "C71_read_back",
    "C71_write_succeeds",
    "C71_trailing_slash_refuted",
    "C71_remove"
   ],
   "note": "proved; a path with a trailing slash fails after its directory was made"
  },
  {
   "property": "C72",
   "status": "partial",
   "theorems": [
    "C72_layer_info_refuted",
    "C72_layer_info_partial"
   ],
   "note": "false in a new UFO, where stored layer info is not removed; proved for an existing one, and the round trip in general"
  },
  {
   "property": "C77",
   "status": "proved",
   "theorems": [
    "C77_features"
   ],
   "note": ""
  },
  {
   "property": "C78",
   "status": "proved",
   "theorems": [
    "C78_read_back"
   ],
   "note": "for every plist codec with the codec laws"
  },
  {
   "property": "C79",
   "status": "proved",
   "theorems": [
    "C79_copy",
    "C79_images"
   ],
   "note": "copying a directory to a path ending in '..' is not modelled"
  },
  {
   "property": "C80",
   "status": "partial",
   "theorems": [
    "C80_listing_refuted",
    "C80_listing_partial"
   ],
   "note": "false as documented: the paths are relative to the data directory; otherwise proved"
  },
  {
   "property": "C28",
   "status": "partial",
   "theorems": [
    "C28_apart_refuted",
    "C28_apart_partial"
   ],
   "note": "false: renaming a layer to its own name with defaultLayer=True while another layer is the default maps both to 'glyphs'; every other history, also with calls that raise, is proved"
  },
  {
   "property": "C29",
   "status": "partial",
   "theorems": [
    "C29_accepted_refuted",
    "C29_accepted_partial"
   ],
   "note": "false for an order with repeated names, an empty layer name, a non-default layer called public.default and two layers in one directory; proved after every other history of successful calls"
  },
  {
   "property": "C45",
   "status": "proved",
   "theorems": [
    "C45_reverse_twice",
    "C45_loose_points_dropped"
   ],
   "note": "a closed contour has no 'move' point"
  },
  {
   "property": "C46",
   "status": "proved",
   "theorems": [
    "C46_reversed_closed",
    "C46_reversed_open"
   ],
   "note": "off-curve points at the end of an open contour are dropped; a closed contour starting with an off-curve point comes back rotated by one segment"
  },
  {
   "property": "C47",
   "status": "partial",
   "theorems": [
    "C47_round_trip_refuted",
    "C47_round_trip_partial"
   ],
   "note": "false for a closed contour of a single point (comes back open) and for a contour without on-curve points whose last point equals its first (loses a point); proved for every other sequence of contours and components, with and without smooth guessing and implied closing lines"
  },
  {
   "property": "C48",
   "status": "proved",
   "theorems": [
    "C48_smooth_flags_only"
   ],
   "note": "contours drawn without identifier (its beginPath takes none); the comparison of directions is a parameter"
  },
  {
   "property": "C49",
   "status": "proved",
   "theorems": [
    "C49_segments",
    "C49_points_once"
   ],
   "note": "for contours with the structure the GLIF reader checks"
  },
  {
   "property": "C81",
   "status": "partial",
   "theorems": [
    "C81_version_refuted",
    "C81_version_partial",
    "C81_no_images"
   ],
   "note": "false when metainfo.plist has no formatVersion: KeyError instead of UFOLibError; otherwise proved"
  },
  {
   "property": "C60",
   "status": "partial",
   "theorems": [
    "C60_round_trip_refuted",
    "C60_round_trip_partial",
    "C60_file_partial",
    "C60_file_refuted",
    "plist_codec_laws"
   ],
   "note": "false for element trees of objects with bytes when the standard library's ElementTree is used: fromtree raises TypeError; proved for all others. Through a file (dumps, loads) proved for all objects, bytes included, whose texts have no carriage return, which comes back as a line feed"
  },
  {
   "property": "C61",
   "status": "proved",
   "theorems": [
    "C61_data",
    "C61_lines"
   ],
   "note": ""
  },
  {
   "property": "C62",
   "status": "proved",
   "theorems": [
    "C62_dates"
   ],
   "note": ""
  },
  {
   "property": "C63",
   "status": "proved",
   "theorems": [
    "C63_order"
   ],
   "note": "also which exception is raised"
  },
  {
   "property": "C64",
   "status": "proved",
   "theorems": [
    "C64_range",
    "C64_inside"
   ],
   "note": ""
  },
  {
   "property": "C65",
   "status": "partial",
   "theorems": [
    "C65_escaping_partial",
    "C65_refuted",
    "C65_refused"
   ],
   "note": "false for carriage returns and, in attribute values, tabulators, which are not escaped; proved for all other XML texts; texts that are no XML are refused"
  },
  {
   "property": "C66",
   "status": "partial",
   "theorems": [
    "C66_parse_back_partial",
    "C66_refuted"
   ],
   "note": "names of elements and attributes are not checked by the serializer; proved for ASCII names without namespaces and texts without the characters of C65"
  },
  {
   "property": "C67",
   "status": "proved",
   "theorems": [
    "C67_pretty",
    "C67_idempotent",
    "C67_file"
   ],
   "note": ""
  },
  {
   "property": "C50",
   "status": "partial",
   "theorems": [
    "C50_outlines_partial",
    "C50_refuted"
   ],
   "note": "false: the pen accepts curves and off-curve runs that the reader rejects at the wrap-around of a contour; proved: a written GLIF 2 outline is readable if and only if every contour follows the documented rule (numbers that are no booleans, texts of C65)"
  },
  {
   "property": "C51",
   "status": "proved",
   "theorems": [
    "C51_unicodes"
   ],
   "note": "both formats, every list of integers, names XML can carry"
  },
  {
   "property": "C52",
   "status": "proved",
   "theorems": [
    "C52_note",
    "C52_unique"
   ],
   "note": "both formats; notes of characters XML carries unchanged"
  },
  {
   "property": "C53",
   "status": "partial",
   "theorems": [
    "C53_attributes_partial",
    "C53_refuted"
   ],
   "note": "false for a boolean width, which is written as 'True' and refused by the reader; proved for glyphs without booleans as numbers and with texts of C65, an advance of zero being the same as none and image numbers equal to their default coming back as the default"
  },
  {
   "property": "C54",
   "status": "partial",
   "theorems": [
    "C54_outline_partial",
    "C54_refuted"
   ],
   "note": "false for texts with tabulators, see C65; proved for all other outlines accepted by the reader"
  },
  {
   "property": "C55",
   "status": "proved",
   "theorems": [
    "C55_identifiers"
   ],
   "note": "both formats, unmodified document bytes"
  },
  {
   "property": "C56",
   "status": "partial",
   "theorems": [
    "C56_format1_partial",
    "C56_anchors_partial",
    "C56_refuted"
   ],
   "note": "false with identifiers, which the pen writes although GLIF 1 readers refuse them, and for single named move points, which come back as anchors; proved for outlines without identifiers, and the anchors"
  },
  {
   "property": "C57",
   "status": "partial",
   "theorems": [
    "C57_fetch_partial",
    "C57_written",
    "C57_written_1",
    "C57_refuted"
   ],
   "note": "false for glyph or outline elements inside a note, which the fetchers take into account; proved for all other documents and for every written file"
  },
  {
   "property": "C58",
   "status": "partial",
   "theorems": [
    "C58_glyph_partial",
    "C58_refuted"
   ],
   "note": "false for names with tabulators, see C65; proved for all valid glyphs with the exceptions of C50, C53 and C65"
  },
  {
   "property": "C59",
   "status": "proved",
   "theorems": [
    "C59_read",
    "C59_accepts",
    "C59_write"
   ],
   "note": ""
  },
  {
   "property": "C82",
   "status": "partial",
   "theorems": [
    "C82_document_partial",
    "C82_read_write_read_partial",
    "C82_document_refuted"
   ],
   "note": "false for carriage returns spelled as character references, which the writer does not escape, and for integers beyond 64 bits in the lib, which can be read but not written; proved for every document that gives no tab or carriage return by number, with integers in range, and for every reading with texts that XML carries unchanged"
  },
  {
   "property": "C83",
   "status": "proved",
   "theorems": [
    "C83_outlines"
   ],
   "note": "both formats"
  },
  {
   "property": "C84",
   "status": "partial",
   "theorems": [
    "C84_refuted",
    "C84_rebuild_refuted",
    "C84_sessions_partial",
    "C84_lower_case_names_partial",
    "C84_apart_names_partial",
    "contents_codec_laws",
    "contents_total"
   ],
   "note": "false with the default file name function (C08) and when rebuildContents is called while contents.plist still lists a deleted glyph whose file name is used again; proved for case-fresh file name functions, and for the default one with names without upper-case letters or names that are apart (C08), for sessions without rebuildContents on an unsaved set"
  },
  {
   "property": "C85",
   "status": "partial",
   "theorems": [
    "C85_glyphs_partial",
    "C85_careful",
    "C85_lower_case_names_partial",
    "C85_apart_names_partial"
   ],
   "note": "as C84; glyphs that GLIF 2 or 1 can store as in C58 and C56"
  },
  {
   "property": "C86",
   "status": "partial",
   "theorems": [
    "C86_references_partial",
    "C86_lower_case_names_partial",
    "C86_apart_names_partial"
   ],
   "note": "as C85"
  },
  {
   "property": "C87",
   "status": "partial",
   "theorems": [
    "C87_fromtree_partial",
    "C87_document_partial",
    "C87_empty_key_refuted"
   ],
   "note": "false for empty keys, which the reader takes for no key; proved for trees of property list elements without empty keys"
  },
  {
   "property": "C88",
   "status": "partial",
   "theorems": [
    "C88_empty_refuted",
    "C88_names_refuted",
    "C88_fonts_partial",
    "C88_careful",
    "C88_lower_case_names_partial",
    "C88_apart_names_partial"
   ],
   "note": "false where C84 is (default file name function, rebuildContents), and when an empty part is written over one that the same writer wrote before, or a layer is made the default layer under its own name beside another one (C28); proved for all other sequences of calls on a case-sensitive file system with texts and values of C60, C85 and C37, one glyph set object for each layer"
  },
  {
   "property": "C89",
   "status": "partial",
   "theorems": [
    "C89_like_package",
    "C89_until_close",
    "C89_refused",
    "C89_close_twice_refuted"
   ],
   "note": "proved, for creators that can be written; false for a second close() of an archive that existed before: it replaces the archive by one with an empty root directory"
  },
  {
   "property": "C90",
   "status": "partial",
   "theorems": [
    "C90_file_objects_partial",
    "C90_reading",
    "C90_returned_error_refuted",
    "C90_text",
    "C90_text_refused"
   ],
   "note": "false when a directory is at the path (or, in mode 'x', anything): line 1040 returns the UFOLibError instead of raising it; otherwise proved, in binary mode and, for UTF-8, in text mode"
  },
  {
   "property": "C91",
   "status": "partial",
   "theorems": [
    "C91_glif",
    "C91_nameless_anchor_refuted",
    "C91_glyph_sets_partial",
    "C91_careful",
    "C91_apart_names_partial"
   ],
   "note": "proved for the outlines of C47 (it is false for the others) and the glyph sets and names of C85, in GLIF 1 for glyphs whose anchors have names; an anchor without a name comes back as a drawn point"
  },
  {
   "property": "C92",
   "status": "partial",
   "theorems": [
    "C92_mapping_partial",
    "C92_apart_names_partial"
   ],
   "note": "as C85"
  },
  {
   "property": "C93",
   "status": "partial",
   "theorems": [
    "C93_shape",
    "C93_tree",
    "C93_again_partial",
    "C93_again_refuted"
   ],
   "note": "the shape is proved; writing is false for documents without a value (None), integers beyond 64 bits and texts with carriage returns spelled as character references; proved for all others that give no tab or carriage return by number"
  },
  {
   "property": "C94",
   "status": "partial",
   "theorems": [
    "C94_glif_reading",
    "C94_glif_writing_partial",
    "C94_glif_writing_refuted",
    "C94_sessions",
    "C94_readers",
    "C94_listing",
    "C94_listing_refuted"
   ],
   "note": "false for a number as the unicodes of a glyph, which only validation turns into a list, and for getImageDirectoryListing, from which validation leaves out files that are no PNG images; proved for everything else, writing GLIF for libs without tuples as keys"
  },
  {
   "property": "C95",
   "status": "partial",
   "theorems": [
    "C95_fontinfo_accepts",
    "C95_fontinfo_exact_partial",
    "C95_guidelines",
    "C95_anchors",
    "C95_images",
    "C95_lists",
    "C95_libs",
    "C95_layer_info"
   ],
   "note": "proved exactly, except that openTypeHeadCreated also accepts dates in which int() reads something else than digits (C40)"
  },
  {
   "property": "C96",
   "status": "partial",
   "theorems": [
    "C96_never_refused_partial",
    "C96_careful_partial",
    "C96_apart_names_partial",
    "C96_opening_again_refuted"
   ],
   "note": "proved for all sequences of the calls of C88 (rebuilding the contents excepted) with fewer than 10^15-3 names, on the file systems and with the texts and values of C88; a layer is opened once by a writer: opening it again after deleting one of its glyphs is refused"
  },
  {
   "property": "C97",
   "status": "partial",
   "theorems": [
    "C97_save_as_partial",
    "C97_careful_partial",
    "C97_apart_names_partial",
    "C97_documents_partial",
    "C97_all_refuted"
   ],
   "note": "proved for UFOs whose XML documents give no tab or carriage return by number, integers of 64 bits, names of glyphs without tabs, fewer than 10^15-3 names; glyphs get the names of contents.plist; false for a lib with an integer beyond 64 bits, which is read and can not be written"
  },
  {
   "property": "C98",
   "status": "partial",
   "theorems": [
    "C98_in_place_partial",
    "C98_careful_partial",
    "C98_apart_names_partial",
    "C98_unlisted_refuted"
   ],
   "note": "proved for UFOs whose layer directories hold files only, with file names that differ in more than case, without directories of layers that are not listed, without images that are no PNG files and without empty directories in data; false with an unlisted layer directory: a new layer is given it together with the glyphs in there"
  },
  {
   "property": "C99",
   "status": "proved",
   "theorems": [
    "C99_from_version_2",
    "C99_from_version_2_refused",
    "C99_from_version_1",
    "C99_from_version_1_refused",
    "C99_to_version_1",
    "C99_to_version_1_validated"
   ],
   "note": "the refusals are stated for validate=False; a NaN or infinity in a UFO 1 raises ValueError or OverflowError, an infinity in a UFO 2 OverflowError, an unhashable fontStyle TypeError"
  },
  {
   "property": "C100",
   "status": "partial",
   "theorems": [
    "C100_unsaved_partial",
    "C100_careful_partial",
    "C100_apart_names_partial",
    "C100_glyph_deletion_refuted",
    "C100_layer_deletion_refuted",
    "C100_layer_renaming_refuted"
   ],
   "note": "false after an unsaved deletion of a glyph (none of its layer is read) and after an unsaved deletion or renaming of a layer (no layer is read); proved for all other calls of C88, for programs that end between two calls"
  },
  {
   "property": "C101",
   "status": "partial",
   "theorems": [
    "C101_upgrade_partial",
    "C101_careful_partial",
    "C101_apart_names_partial",
    "C101_abandoned_refuted",
    "C101_info_refuted",
    "C101_kerning_refuted"
   ],
   "note": "proved with the parts given back, for older UFOs as in C98 without images directory, layercontents.plist and other layer directories; the last sentence is false: every UFO 1 or 2 that has glyphs is unreadable for a UFOReader until layercontents.plist is written, and without giving the parts back the info may be refused and the kerning groups lose their meaning"
  },
  {
   "property": "C102",
   "status": "proved",
   "theorems": [
    "C102_documents"
   ],
   "note": "as an equivalence for both formats; also accepted, and stated so: text in contours and between elements, and in format 1 any other attributes of the contour and the point of an anchor"
  },
  {
   "property": "C103",
   "status": "proved",
   "theorems": [
    "C103_writer"
   ],
   "note": "as an equivalence for both formats, for the validating writer; assumes that repr of floats consists of characters of XML 1.0 and that no dictionary has a key twice; also accepted, and stated so: booleans as numbers, bytes and dictionaries as unicodes, segment types that are unknown, a contour begun while another is open"
  },
  {
   "property": "C104",
   "status": "proved",
   "theorems": [
    "C104_write",
    "C104_version_2",
    "C104_version_3",
    "C104_dates"
   ],
   "note": "as equivalences; the types are those of C38 with its exceptions (booleans are integers); assumes that no dictionary in the info object has a key twice"
  },
  {
   "property": "C105",
   "status": "proved",
   "theorems": [
    "C105_groups",
    "C105_kerning",
    "C105_lib",
    "C105_info",
    "C105_features",
    "C105_layers",
    "C105_glyph_set",
    "C105_layer_info",
    "C105_images"
   ],
   "note": "as equivalences, for every parser of property lists; kerning and font info assume that no dictionary has a key twice; the types of font info are those of C104"
  },
  {
   "property": "C106",
   "status": "partial",
   "theorems": [
    "C106_old_partial",
    "C106_other_files",
    "C106_merged_refuted"
   ],
   "note": "proved for groups without the prefixes of UFO 3 whose names differ without the prefix of their side; false otherwise: two groups that become one are read although they share a glyph; for the first reading of a reader"
  },
  {
   "property": "C107",
   "status": "partial",
   "theorems": [
    "C107_written_partial",
    "C107_given_back_partial",
    "C107_written_refuted",
    "C107_given_back_refuted"
   ],
   "note": "proved for names that mean the same in both versions; false otherwise: a group named @MMK_L_x comes back with a second one, and two groups that become one lose the kerning of one of them"
  },
  {
   "property": "C108",
   "status": "proved",
   "theorems": [
    "C108_written",
    "C108_read",
    "C108_round_trip_partial",
    "C108_base64"
   ],
   "note": "both directions exactly; the round trip through a file for texts without carriage returns, as in C60"
  },
  {
   "property": "C109",
   "status": "partial",
   "theorems": [
    "C109_to_2_partial",
    "C109_to_1_partial",
    "C109_to_2_refuted",
    "C109_to_1_refuted"
   ],
   "note": "through the property list file; proved for UFO 2 if openTypeHeadLowestRecPPEM, openTypeOS2WinAscent and openTypeOS2WinDescent are whole numbers, and for UFO 1 if no value is an infinity or NaN; false otherwise: UFO 3 accepts such values, the conversion rounds 1.5 to 2 and raises for NaN and infinities"
  },
  {
   "property": "C110",
   "status": "proved",
   "theorems": [
    "C110_parts",
    "C110_left_out"
   ],
   "note": "as an equivalence for both formats, for documents given as bytes; a validated reading with one part left out sees less, which is stated so"
  },
  {
   "property": "C111",
   "status": "proved",
   "theorems": [
    "C111_values",
    "C111_values_1",
    "C111_version_2",
    "C111_version_1"
   ],
   "note": "as equivalences; the types are those of C104; assumes that no dictionary has a key twice; that floats with whole values are refused where 750.5 is accepted is what the code does, see C35"
  },
  {
   "property": "C112",
   "status": "proved",
   "theorems": [
    "C112_dumps",
    "C112_groups",
    "C112_kerning",
    "C112_lib",
    "C112_features",
    "C112_info",
    "C112_layer_info"
   ],
   "note": "as equivalences; assumes that repr of floats consists of characters of XML 1.0 and, for kerning and font info, that no dictionary has a key twice; the types of font info are those of C104"
  },
  {
   "property": "C113",
   "status": "partial",
   "theorems": [
    "C113_delete",
    "C113_delete_none_refuted",
    "C113_rename_partial",
    "C113_rename_none",
    "C113_new_layer",
    "C113_old_layer",
    "C113_other_default",
    "C113_no_name",
    "C113_histories_partial",
    "C113_order"
   ],
   "note": "false for deleteGlyphSet(None), which removes the files of the default layer and then raises KeyError, and for making a layer the default layer under its own name beside another one (C28); proved for all other calls and histories"
  },
  {
   "property": "C114",
   "status": "proved",
   "theorems": [
    "C114_step",
    "C114_found",
    "C114_histories"
   ],
   "note": "as a refinement of a function from names to data, one call at a time and for histories"
  },
  {
   "property": "C115",
   "status": "proved",
   "theorems": [
    "C115_step",
    "C115_found",
    "C115_histories",
    "C115_start",
    "C115_with_images"
   ],
   "note": "as a refinement of a dictionary of paths, one call at a time and for histories, also mixed with calls on images; components of paths are plain names"
  }
 ]
}