{
 "claims": [
  {
   "property": "C01",
   "status": "proved",
   "theorems": [
    "C01_xref_locates_every_object"
   ],
   "note": "All object bodies and trailers, any number of objects; files under 10^10 bytes (the xref entry width)."
  },
  {
   "property": "C02",
   "status": "proved",
   "theorems": [
    "C02_complete_when_writer_never_fails",
    "C02_count_is_bytes_accepted"
   ],
   "note": "Any destination honouring the io.Writer contract."
  },
  {
   "property": "C03",
   "status": "partial",
   "theorems": [
    "C03_compile_never_reports_errors",
    "C03_write_failure_unreported_refuted"
   ],
   "note": "The English property is false of the code: compilePdf never reports a Write error. Proved: the refutation, for every document and writer."
  },
  {
   "property": "C04",
   "status": "proved",
   "theorems": [
    "C04_number_of_pages",
    "C04_page_tree_lists_every_page_once"
   ],
   "note": "All histories before the first output, including SetPage, masks, callbacks and restarts."
  },
  {
   "property": "C05",
   "status": "partial",
   "theorems": [
    "C05_repeat_output_refuted"
   ],
   "note": "False of the code: refuted for every document with at least one page (the second output doubles the page tree)."
  },
  {
   "property": "C06",
   "status": "partial",
   "theorems": [
    "C06_draw_changes_only_the_current_page",
    "C06_pages_show_what_was_drawn"
   ],
   "note": "Histories without SetPage (with it: C07_histories), masked images (C36), fonts registered with the Underline bit (C42) and earlier output (C05)."
  },
  {
   "property": "C08",
   "status": "proved",
   "theorems": [
    "C08_reads_deliver_document"
   ],
   "note": "Any sequence of buffer sizes."
  },
  {
   "property": "C09",
   "status": "partial",
   "theorems": [
    "C09_start_fresh_partial",
    "C09_start_fresh_refuted"
   ],
   "note": "Proved for all state except the page counter and header/footer callbacks, which survive Start; refuted for GetNumberOfPages."
  },
  {
   "property": "C16",
   "status": "proved",
   "theorems": [
    "C16_outline_list"
   ],
   "note": "All histories whose header/footer callbacks add no outline entries; includes repeated output."
  },
  {
   "property": "C17",
   "status": "partial",
   "theorems": [
    "C17_parent_refuted"
   ],
   "note": "False of the code: refuted for every document with an outline (Parent names the page tree, object 2)."
  },
  {
   "property": "C41",
   "status": "partial",
   "theorems": [
    "C41_link_on_current_page_partial",
    "C41_links_of_every_page",
    "C41_own_page_size_refuted"
   ],
   "note": "Proved for the page and for rectangles relative to the default page height, for every finishing history (C41_links_of_every_page: SetPage, masks and callbacks included); refuted for pages with their own size."
  },
  {
   "property": "C42",
   "status": "partial",
   "theorems": [
    "C42_failed_setfont_changes_nothing",
    "C42_setfont_succeeds_iff_added",
    "C42_text_uses_selected_font",
    "C42_underline_registration_refuted"
   ],
   "note": "Proved when fonts are registered without the Underline bit; a refutation shows the restriction is needed."
  },
  {
   "property": "C43",
   "status": "partial",
   "theorems": [
    "C43_compress_level_above_refuted",
    "C43_compress_level_partial"
   ],
   "note": "Proved for levels up to 9; refuted above 9 (level left unchanged instead of BestCompression)."
  },
  {
   "property": "C45",
   "status": "proved",
   "theorems": [
    "C45_imported_objects_keep_their_numbers"
   ],
   "note": "Any state, any imported object map numbered from GetNextObjectID."
  },
  {
   "property": "C46",
   "status": "partial",
   "theorems": [
    "C46_duplicate_name_is_an_error",
    "C46_setcolorspace_succeeds_iff_added",
    "C46_unchanged_on_error_refuted"
   ],
   "note": "Errors and selection proved; \"leaves the document unchanged\" refuted."
  },
  {
   "property": "C52",
   "status": "proved",
   "theorems": [
    "C52_cursor_restored",
    "C52_header_footer_run_once_per_page"
   ],
   "note": "Any number of pages; drawing callbacks on the page, cursor for arbitrary callbacks."
  },
  {
   "property": "C10",
   "status": "proved",
   "theorems": [
    "C10_escaped_literal_reads_back"
   ],
   "note": "All byte strings, whatever follows the literal."
  },
  {
   "property": "C11",
   "status": "partial",
   "theorems": [
    "C11_info_texts_read_back_partial",
    "C11_supplementary_character_refuted"
   ],
   "note": "Proved for all texts of BMP characters (through Go's UTF-8 iteration); refuted for every character above U+FFFF."
  },
  {
   "property": "C12",
   "status": "partial",
   "theorems": [
    "C12_shared_glyph_refuted",
    "C12_supplementary_character_refuted",
    "C12_text_copies_back_distinct_glyphs_partial",
    "C12_tounicode_gives_first_character"
   ],
   "note": "Proved when no two drawn characters share a glyph; refuted for shared glyphs (first registered character wins) and for characters above U+FFFF."
  },
  {
   "property": "C13",
   "status": "proved",
   "theorems": [
    "C13_key_material_distinct",
    "C13_key_material_is_standard",
    "C13_reader_recovers_data"
   ],
   "note": "End to end through the written encryption dictionary, MD5 and RC4 written out in full; permission words below 256 and object numbers below 2^24."
  },
  {
   "property": "C14",
   "status": "proved",
   "theorems": [
    "C14_high_permission_bits_refuted",
    "C14_password_padding",
    "C14_passwords_open_the_file",
    "C14_permission_word"
   ],
   "note": "Permission word for every combination of the four permissions, opening with user and owner password of any length; a refutation shows that permission bits above the low byte break the file."
  },
  {
   "property": "C15",
   "status": "partial",
   "theorems": [
    "C15_imported_refuted",
    "C15_link_url_encrypted",
    "C15_streams_encrypted_partial",
    "C15_transparency_group_refuted"
   ],
   "note": "Proved for every object kind except transparency groups (refuted: never encrypted) and imported objects (refuted: C15_imported_refuted, written in the clear); for every history of SetProtection and object-adding calls the key each stream is encrypted with is determined (C54_which_key)."
  },
  {
   "property": "C33",
   "status": "proved",
   "theorems": [
    "C33_stream_length_is_exact"
   ],
   "note": "All nine kinds of stream object, any compressor output, with and without protection."
  },
  {
   "property": "C54",
   "status": "partial",
   "theorems": [
    "C54_late_setprotection_refuted",
    "C54_one_key",
    "C54_setprotection_method_refuted",
    "C54_which_key"
   ],
   "note": "For every history: which stream is encrypted with the protection in force at writing, at adding, or never (C54_which_key); all under one key if protection is set before anything is added. The full claim is false of the code: refuted for the SetProtection method without Config.Protection (no encryption dictionary), and for a late SetProtection."
  },
  {
   "property": "C21",
   "status": "partial",
   "theorems": [
    "C21_all_modes_fit_partial",
    "C21_all_modes_fit_widths",
    "C21_lines_fit_partial",
    "C21_lines_reassemble",
    "C21_positive_kerning_refuted",
    "C21_separated_lines_fit_partial",
    "C21_separated_lines_fit_widths",
    "C21_strict_concat"
   ],
   "note": "Nothing lost: every text, option, width and measure function. Width bound: without separator and for subadditive widths; with a separator that fits, in both modes and the separator included, when a text is not wider than one it ends (or, in strict mode, begins). Refuted for positive kerning."
  },
  {
   "property": "C22",
   "status": "partial",
   "theorems": [
    "C22_returns_iff",
    "C22_returns_when_characters_fit_partial",
    "C22_separator_livelock_refuted",
    "C22_separator_panic_refuted",
    "C22_wide_character_refuted"
   ],
   "note": "Exact characterisation without separator (returns iff no character is wider than the line); refuted for wide characters and, with a separator, by a livelock and a panic."
  },
  {
   "property": "C23",
   "status": "proved",
   "theorems": [
    "C23_fit_draws_everything",
    "C23_multicell_draws_prefix"
   ],
   "note": "Any width function and any float-like height arithmetic."
  },
  {
   "property": "C24",
   "status": "proved",
   "theorems": [
    "C24_add_chars",
    "C24_add_chars_total",
    "C24_mapped_to_notdef_refuted"
   ],
   "note": "Any font, any substitution policy, any earlier texts. A refutation notes that characters the cmap explicitly maps to glyph 0 are not treated as missing."
  },
  {
   "property": "C25",
   "status": "proved",
   "theorems": [
    "C25_bmp_lookup_follows_cmap",
    "C25_chars_agree_with_lookup",
    "C25_chars_of_segments",
    "C25_no_supplementary_subtable",
    "C25_supplementary_lookup_follows_cmap"
   ],
   "note": "Format 4 and format 12, for every font the parser accepts. C25_chars_of_segments: the exported character list (TTFParser.Chars) holds exactly the characters below U+FFFF that a segment maps to a glyph other than 0, with that glyph. C25_chars_agree_with_lookup: where segments do not overlap, the exported list and the lookup agree (on characters whose lookup does not panic)."
  },
  {
   "property": "C26",
   "status": "partial",
   "theorems": [
    "C26_lookup_safe_partial",
    "C26_no_final_segment_refuted",
    "C26_range_offset_refuted"
   ],
   "note": "Proved for fonts whose cmap ends with the 0xFFFF segment and whose range offsets stay inside; refuted otherwise (panic)."
  },
  {
   "property": "C27",
   "status": "partial",
   "theorems": [
    "C27_width_array_complete",
    "C27_width_from_hmtx",
    "C27_width_total",
    "C27_zero_em_refuted"
   ],
   "note": "Proved for every accepted font with unitsPerEm > 0; refuted for unitsPerEm = 0 (division by zero). The /W array carries these widths."
  },
  {
   "property": "C49",
   "status": "partial",
   "theorems": [
    "C49_format2_misread_refuted",
    "C49_single_subtable_partial",
    "C49_two_subtables_refuted"
   ],
   "note": "Proved for a single format-0 subtable; refuted for several subtables and other formats."
  },
  {
   "property": "C50",
   "status": "partial",
   "theorems": [
    "C50_no_panic_partial",
    "C50_reads_are_in_the_file",
    "C50_truncated_outlines_refuted",
    "C50_truncation_is_an_error_or_harmless",
    "C50_zero_hmetrics_panic_refuted"
   ],
   "note": "Proved: every byte read is in the file, truncation is an error or harmless, no panic when numberOfHMetrics > 0; refuted for numberOfHMetrics = 0, and a font cut inside glyf is accepted and panics on output."
  },
  {
   "property": "C28",
   "status": "partial",
   "theorems": [
    "C28_closed_without_nesting_partial",
    "C28_nested_components_refuted"
   ],
   "note": "Proved for used glyphs and their direct components (complete when composites are not nested); refuted for nested composites."
  },
  {
   "property": "C29",
   "status": "proved",
   "theorems": [
    "C29_embedded_outlines_intact",
    "C29_every_glyph_readable",
    "C29_other_outlines_empty",
    "C29_output_succeeds"
   ],
   "note": "Every accepted font; used glyphs and direct components byte for byte, all others empty, loca monotone and inside glyf; output succeeds for readable outlines."
  },
  {
   "property": "C30",
   "status": "proved",
   "theorems": [
    "C30_checksums",
    "C30_copied_tables",
    "C30_directory"
   ],
   "note": "Embedded fonts under 2^32 bytes. Rebuilt tables carry their checksum; copied tables carry the checksum stored in the source font."
  },
  {
   "property": "C31",
   "status": "proved",
   "theorems": [
    "C31_sequential",
    "C31_values_read_back",
    "C31_write_exact"
   ],
   "note": "All buffers, positions and values."
  },
  {
   "property": "C19",
   "status": "partial",
   "theorems": [
    "C19_box_uniform",
    "C19_br",
    "C19_conversion_factor",
    "C19_custom_factor_rect_refuted",
    "C19_custom_factor_witness_refuted",
    "C19_float64_conversions",
    "C19_float_round_trip_refuted",
    "C19_getters",
    "C19_getters_float64",
    "C19_rect_back",
    "C19_rect_round_trip",
    "C19_rect_uniform",
    "C19_round_trip"
   ],
   "note": "Round trip, factors, rectangles and boxes over exact arithmetic for every predefined unit; refuted: Config.ConversionForUnit is ignored by Rect/Box conversion, and the float64 round trip is not exact (but every float64 conversion and round trip is proved to be within one part in 2^51 of the exact one, for magnitudes from 2^-990 to 2^990)."
  },
  {
   "property": "C20",
   "status": "partial",
   "theorems": [
    "C20_break_condition",
    "C20_new_xy_points",
    "C20_new_y_points",
    "C20_new_y_refuted",
    "C20_no_offset_points",
    "C20_units_refuted"
   ],
   "note": "SetNewY and friends break exactly when the limit is passed, in points; refuted for other units (the position is converted twice / compared with points)."
  },
  {
   "property": "C32",
   "status": "partial",
   "theorems": [
    "C32_balanced",
    "C32_empty_polygon_refuted",
    "C32_prefix"
   ],
   "note": "Every drawing call that leaves a page's q/Q and BT/ET balanced: proved for every history whose Save/Restore and clip calls are paired and whose polygons are non-empty; also prefix property; refuted for an empty polygon or clip polygon."
  },
  {
   "property": "C34",
   "status": "partial",
   "theorems": [
    "C34_cmyk_refuted",
    "C34_gray_nan_refuted",
    "C34_in_range"
   ],
   "note": "RGB from uint8, CMYK components at most 100, gray not NaN: every colour operand written denotes a number in [0,1]; refuted for CMYK above 100 and for NaN gray."
  },
  {
   "property": "C40",
   "status": "partial",
   "theorems": [
    "C40_attributes",
    "C40_br_zero_refuted",
    "C40_gray_then_colour_refuted",
    "C40_in_force",
    "C40_nil_cell_then_text_refuted",
    "C40_text_then_cell_refuted"
   ],
   "note": "Every orderly history (each piece shown with the font, size, colour, text state in force at its call; C40_in_force states the look from the calls alone); refuted in four ways: Text after Cell, nil-rectangle cell, Br(0), and gray followed by colour."
  },
  {
   "property": "C38",
   "status": "proved",
   "theorems": [
    "C38_float64",
    "C38_justified_fills"
   ],
   "note": "Exact arithmetic, no letter spacing, orderly histories: pen position of every character, total within half a thousandth of the size per gap (the step is an integer in the stream), end spaces untouched, no gap or no room leaves the text as is. C38_float64: the same in float64 for widths up to 2^20 points and sizes from a thousandth of a point: with m the value MeasureTextWidth returns, m plus the steps misses the width by at most size/2000 per gap plus 2^-28 point, and the steps vanish when m is no less than the width or there is no gap; the size in the stream is the one set to three decimals (exactly it when it has at most three)."
  },
  {
   "property": "C39",
   "status": "partial",
   "theorems": [
    "C39_float64",
    "C39_measured_is_drawn",
    "C39_spacing_refuted"
   ],
   "note": "Exact arithmetic, orderly histories: measured = drawn exactly without letter spacing; with spacing bounded by size/upem + size/1000 per character, and exact equality refuted. C39_float64: in float64, without letter spacing, the advance the viewer shows is u thousandths of an em of the size written and MeasureTextWidth returns u thousandths of the size set, to one part in 2^51; the size written is the size set to three decimals."
  },
  {
   "property": "C55",
   "status": "proved",
   "theorems": [
    "C55_alignment",
    "C55_float64"
   ],
   "note": "Orderly histories. Exact arithmetic (C55_alignment), and float64 (C55_float64): the printed position is within 0.005001 points of the aligned one for every cell whose numbers are finite and at most 2^20 points, size at most 4096."
  },
  {
   "property": "C35",
   "status": "partial",
   "theorems": [
    "C35_drawings_carry_their_transparency_partial",
    "C35_later_assignment_refuted",
    "C35_masks_own_state",
    "C35_nan_accepted_refuted",
    "C35_newtransparency_partial",
    "C35_opaque_blend_mode_refuted",
    "C35_sharing"
   ],
   "note": "All histories of settings and drawings over float64 alphas, with the ExtGState pointers modelled: carried values and sharing proved when the caller does not later write to a Transparency passed by pointer and combines alpha 1 with /Normal only; refutations show both restrictions are needed and that NaN passes validation."
  },
  {
   "property": "C36",
   "status": "partial",
   "theorems": [
    "C36_alpha_lost_refuted",
    "C36_embedded_once_partial",
    "C36_image_refers_to_its_data_partial",
    "C36_mask_source_drawn_refuted",
    "C36_masked_image_refers_to_both_partial"
   ],
   "note": "All histories (callbacks, SetPage, repeated output included) in which every image source keeps its content and one use (plain, under a mask, as a mask): each drawing refers to its own data to the end, masks included, and a source is embedded once. Refutations: a source used in two ways gets the first way's object."
  },
  {
   "property": "C07",
   "status": "partial",
   "theorems": [
    "C07_blank_page_refuted",
    "C07_drawing_before_pages_refuted",
    "C07_errors",
    "C07_histories",
    "C07_links_refuted",
    "C07_page_height_refuted",
    "C07_setpage_selects_partial",
    "C07_without_setpage"
   ],
   "note": "Errors: every state. Selection: every history (SetPage included) in which each page is drawn on directly after it is added, nothing is drawn before the first page, and there are no callbacks: SetPage succeeds and a drawing changes exactly the n-th page of the output; and for whole histories (C07_histories; no masked image, no link after SetPage) every page of the output shows exactly what was drawn while it was the selected page. Refutations: blank pages, drawing before the first page, links, page height."
  },
  {
   "property": "C18",
   "status": "partial",
   "theorems": [
    "C18_nested_links_partial",
    "C18_root_ends_partial",
    "C18_root_flat",
    "C18_root_last_refuted",
    "C18_top_level_prev_refuted",
    "C18_top_prev_partial"
   ],
   "note": "Every forest over distinct outlines of a document, any depth and width: Next, First, Last everywhere, Parent and Prev below the top level, no Prev on the first. The top level's Prev is characterised exactly (creation order) and refuted, as is the outline dictionary's Last. C18_root_ends_partial, C18_root_flat: the outline dictionary's First and Last are the first and last item added, so they are right for an outline without nesting (for nested ones see C18_root_last_refuted)."
  },
  {
   "property": "C44",
   "status": "partial",
   "theorems": [
    "C44_never_returns_refuted",
    "C44_point_count_refuted",
    "C44_rectangle_validates",
    "C44_rectangle_validates_float64",
    "C44_rectangle_validates_float64_partial"
   ],
   "note": "Exact arithmetic: error exactly for inverted/empty coordinates or (when corners are rounded) a radius above a side, with nothing drawn; otherwise exactly one polygon, the angle loop terminating for every point count. Float64, any arguments, counts below 2^24: the same with float comparisons, the loop ends, the points per corner are as asked or one more. Refuted in float64: 12 points asked give 13; counts from 2^55 never return. Missing: counts from 2^24 to 2^55."
  },
  {
   "property": "C56",
   "status": "partial",
   "theorems": [
    "C56_corner_points_float64_refuted",
    "C56_corners_may_cross_refuted",
    "C56_drawn_inside",
    "C56_plain_outline",
    "C56_rounded_outline"
   ],
   "note": "Exact arithmetic: all points inside for any cosine and sine between 0 and 1 on the first quadrant; the points are those of four quarter circles of the given radius at equal angles, corner after corner; without rounding the four corners in order (any arithmetic). Refuted: float64 gives 13 points for 12; corners cross for radii between half a side and the side."
  },
  {
   "property": "C37",
   "status": "partial",
   "theorems": [
    "C37_accepted_files",
    "C37_alpha_recombines_partial",
    "C37_dark_palette_refuted",
    "C37_empty_chunk_refuted",
    "C37_opaque_png_partial",
    "C37_short_data_refuted"
   ],
   "note": "From the file's bytes to the two image objects, for every size, filter type and pixel value, zlib any inverse pair: the pixels a PDF reader reconstructs (Predictor 15) are the PNG's. Needs chunks with data: an empty chunk ends the reading (refuted), short data panic (refuted), a palette of white-space bytes is rejected (refuted)."
  },
  {
   "property": "C57",
   "status": "partial",
   "theorems": [
    "C57_truncated_png_rejected_partial"
   ],
   "note": "Every well-formed PNG whose chunks have data, cut anywhere before the type of its end chunk."
  },
  {
   "property": "C48",
   "status": "partial",
   "theorems": [
    "C48_allah_inside_word_refuted",
    "C48_arabic_shaping_partial",
    "C48_arabic_text_partial",
    "C48_contextual_forms_refuted",
    "C48_latin_order_refuted",
    "C48_leading_mark_refuted"
   ],
   "note": "Every byte string not beginning with a mark, every map order: nothing lost, marks with their letter, right-to-left, and the required contextual form outside four neighbourhoods. Refutations: leading mark dropped; letters after jeh, dual letters before hamza and teh marbuta inside a word get a wrong form; \"Allah\" inside a longer word cuts the joining; digits and Latin are reversed."
  },
  {
   "property": "C47",
   "status": "partial",
   "theorems": [
    "C47_built_as_called",
    "C47_cells_tile_the_table",
    "C47_draws_the_table_partial",
    "C47_errors_reported",
    "C47_float64_frame_refuted",
    "C47_frame_encloses_rows_refuted",
    "C47_header_font_refuted",
    "C47_long_row_refuted",
    "C47_padding_refuted",
    "C47_short_row_refuted",
    "C47_succeeds_iff_rows_fit",
    "C47_text_leaves_cell_refuted"
   ],
   "note": "proved with exact arithmetic for tables with at most maxRows rows: when DrawTable succeeds the page gets exactly the header, rows, empty filler cells and frames, each cell at the place its row and column give; the places tile the table; it succeeds iff no row is longer than the columns (text layer without errors). Refuted: more rows than maxRows leave the frame, long rows panic, short rows leave holes, padding makes negative boxes, the header font leaks into cells, text lines leave the cell, float64 frames drift. Errors of the text layer end the drawing and are returned, in any arithmetic C47_built_as_called: the columns and rows drawn are those of the AddColumn, AddRow and AddStyledRow calls, in order."
  },
  {
   "property": "C51",
   "status": "partial",
   "theorems": [
    "C51_aligned_in_points",
    "C51_cursor_after",
    "C51_filled_as_text_partial",
    "C51_fills_only_places",
    "C51_names",
    "C51_other_font_refuted",
    "C51_second_filling_refuted",
    "C51_substitute_refuted",
    "C51_underline_refuted",
    "C51_units_refuted",
    "C51_unknown_name"
   ],
   "note": "for every history: a filled placeholder writes exactly what Text would have written at reservation time, moved by the alignment offset, if the current font at filling is the reserving font, no underline and no substituted character; unknown names are errors; filling changes only placeholders; alignment proved with points as the unit. Refuted: second filling shifts again, other units convert the wrong way, another current font is used for measuring, substitutes disappear, underline has width 0"
  },
  {
   "property": "C53",
   "status": "proved",
   "theorems": [
    "C53_characters_from_container",
    "C53_documents_isolated",
    "C53_font_from_container"
   ],
   "note": "heap model with shared pointers: for every interleaving of operations of any number of documents and the container, a document's fonts, embedded characters and returned results equal those of the run without the other documents; a font from the container equals the font added directly. The parsed font data is treated as immutable (no code writes it after parsing)"
  },
  {
   "property": "C58",
   "status": "partial",
   "theorems": [
    "C58_exactly_as_asked",
    "C58_numbers_read",
    "C58_painted_as_asked",
    "C58_text_colour_leaks_refuted",
    "C58_transparency_skipped_refuted"
   ],
   "note": "for float64 (or any number type) and every history of calls with undecorated text: the marks a viewer paints, with their graphics state, are those asked for (fill colour unspecified after coloured text); exactly so without text colours and with the current transparency off for the four simple shapes; printed numbers are within half a unit of the last decimal. Refuted: text colour leaks into later fills, RectFromLowerLeft/UpperLeft, Oval and Curve ignore the current transparency. Underlines and cell borders: C65. Rounding of coordinates: C72"
  },
  {
   "property": "C59",
   "status": "partial",
   "theorems": [
    "C59_crop_in_points_refuted",
    "C59_crop_not_turned_under_mask_refuted",
    "C59_image_where_asked_float64_partial",
    "C59_image_where_asked_partial",
    "C59_mask_is_picture_refuted",
    "C59_mask_turns_picture_refuted",
    "C59_mask_where_asked_partial",
    "C59_masked_image_partial",
    "C59_masked_like_plain",
    "C59_mirrored_under_mask_refuted",
    "C59_natural_size",
    "C59_one_pixel_vanishes_refuted",
    "C59_plain_image_where_asked",
    "C59_plain_image_where_asked_float64",
    "C59_same_image_float64",
    "C59_same_plain_image_float64",
    "C59_second_size_refuted",
    "C59_transparency_skipped_refuted"
   ],
   "note": "exact arithmetic and float64, every history of calls: each point of the image lands within 1/100 point of where asked (in float64 1/99, against exact arithmetic), turned about the middle of the visible box; the crop box likewise; transparency as asked. Refuted: crop lengths are taken as points, a second drawing without rectangle takes the size of the first, one-pixel images get size zero, Image/ImageFrom ignore the current transparency. Masks: the mask's group shows its image where asked; the masked image likewise, turned by both angles about the middle of its rectangle, unless it is both mirrored and turned; the mask lives in the coordinates in force. Refuted: turning the mask turns the picture, a mirrored and turned picture under a mask is thrown off the page, its crop is not turned, one image used as mask and picture is the mask's object. Missing: masked images in float64; Go's cosine and sine are assumed within 2^-28 of the exact ones"
  },
  {
   "property": "C60",
   "status": "partial",
   "theorems": [
    "C60_catalog",
    "C60_cidfont",
    "C60_cmyk_space",
    "C60_content",
    "C60_descriptor",
    "C60_design_units",
    "C60_distinct_entries",
    "C60_embedfont",
    "C60_encryption",
    "C60_external_link",
    "C60_family_name_refuted",
    "C60_font",
    "C60_fontfile",
    "C60_group",
    "C60_gstate",
    "C60_image",
    "C60_indexed_mask_refuted",
    "C60_internal_link",
    "C60_mask_image",
    "C60_mask_image_gray_partial",
    "C60_outline",
    "C60_outlines",
    "C60_page_partial",
    "C60_pages",
    "C60_palette",
    "C60_resources",
    "C60_rgb_space",
    "C60_second_write_page_refuted",
    "C60_smask",
    "C60_softmask",
    "C60_space_name_refuted",
    "C60_tounicode",
    "C60_trailer",
    "C60_unknown_anchor_refuted"
   ],
   "note": "every kind of object gopdf writes, for all field values with finite numbers: the object reads as the dictionary, array or stream wanted, no entry twice. Refuted: a page written a second time has two content references outside an array, family and colour space names are written unescaped, links to unknown anchors are empty, masks from indexed images are not gray. The descriptor's numbers are the exact ratios rounded half away from zero although computed in float64. Missing: imported objects, infinite or NaN numbers"
  },
  {
   "property": "C61",
   "status": "partial",
   "theorems": [
    "C61_destinations",
    "C61_references_resolve",
    "C61_roots"
   ],
   "note": "every history of calls that do not panic: each reference in the text of each object the reader can take apart has generation 0 and leads to an object of the kind its key asks for; with bookmarks and anchors set only while a page exists no destination is lost (shown necessary). Exceptions: the parent of a bookmark (C17), the palette of an indexed picture used as a mask. Missing: inside imported objects"
  },
  {
   "property": "C62",
   "status": "partial",
   "theorems": [
    "C62_creation_date_partial",
    "C62_date_in_trailer",
    "C62_date_read",
    "C62_late_years_refuted",
    "C62_other_zones_refuted"
   ],
   "note": "proved for zones a whole number of hours from UTC; refuted for all other zones (minutes of the zone are dropped) and for years after 9999"
  },
  {
   "property": "C63",
   "status": "partial",
   "theorems": [
    "C63_names_resolve",
    "C63_transparency_image",
    "C63_transparency_text"
   ],
   "note": "every history of calls that do not panic: every font, image, graphics-state and colour-space name in every content object is defined exactly once in the resources object the pages name, leading to an object of that kind; texts and images name the graphics state asked for last (and keep it until written). The side condition on template names is shown necessary. Template names: C67_templates_resolve. Missing: the content of mask groups (which have no resources)"
  },
  {
   "property": "C64",
   "status": "partial",
   "theorems": [
    "C64_measured_in_units",
    "C64_paragraph",
    "C64_paragraph_with_option",
    "C64_transparency"
   ],
   "note": "exact arithmetic, gopdf's own units, every history of calls ending with SetX or SetXY: both functions, from the split lines to the page as a reader shows it (which lines these are is C21-C23). Missing: Config.ConversionForUnit (C19 refutes its uniform use), float64 rounding, and pages other than the current one."
  },
  {
   "property": "C65",
   "status": "partial",
   "theorems": [
    "C65_decorations_as_asked",
    "C65_float64",
    "C65_merged_border_refuted",
    "C65_one_cell",
    "C65_underline_alignment_refuted",
    "C65_underline_baseline",
    "C65_underline_of_text_refuted"
   ],
   "note": "for float64 (or any number type) and every history in which no text directly continues another: the marks painted, with their graphics states, are exactly the shapes, borders and underlines asked for, where the underline runs along the whole box and is measured from the line C65_underline_baseline gives. C65_float64: those of a cell with a rectangle are, number by number, within a millionth of a point of exact arithmetic's (modest fonts, sizes up to 512, coefficients up to 256). Refuted: \"under the text and as long as the text\" for alignments other than top and left and for Text; a nil-rectangle cell after a Text loses its border."
  },
  {
   "property": "C66",
   "status": "partial",
   "theorems": [
    "C66_digest_name_refuted",
    "C66_fresh_holder_draws",
    "C66_image_shows_its_bytes",
    "C66_rewritten_file_refuted",
    "C66_same_picture_once",
    "C66_second_document_refuted"
   ],
   "note": "Proved for programs over many documents, holders and files: every successful unmasked draw refers to the end to the bytes handed over; the same picture again adds nothing and reads nothing; a fresh holder of a decodable image draws. Refuted (kept as theorems): a holder drawn in a second document is an error (its buffer is drained), a rewritten file shows the old picture, a path spelt like a digest shows the other picture. Not covered: masks (see C36), images inside header/footer callbacks."
  },
  {
   "property": "C67",
   "status": "partial",
   "theorems": [
    "C67_error_midway_refuted",
    "C67_imported_pages",
    "C67_one_page_each",
    "C67_size_refuted",
    "C67_success",
    "C67_templates_resolve"
   ],
   "note": "Proved for every program mixing imports with other calls: the pages shown, success exactly if every page has the box (no callbacks), and every template name leads to the imported form of that name in the written file. The reading library gofpdi is a parameter with a stated contract (dense object numbers from the one given, names lead to forms); that it meets it is not proved. Refuted (kept as theorems): an error leaves earlier pages in the document; imported pages get the document's size, and sizes in points are taken as units."
  },
  {
   "property": "C68",
   "status": "proved",
   "theorems": [
    "C68_buffers_are_not_shared",
    "C68_no_waiting",
    "C68_written_as_if_alone"
   ],
   "note": "Every schedule of any number of writing goroutines, each buffer operation a step of its own, any choice of sync.Pool, collection and failing destinations: what is written is a beginning of what the document writes alone, and all of it at the end. Modelled: the four write methods that borrow a buffer, instruction by instruction; the other methods share nothing. Memory model: each buffer operation and pool operation is atomic (sync.Pool is; a held buffer is touched by its holder only, which is a theorem)."
  },
  {
   "property": "C69",
   "status": "partial",
   "theorems": [
    "C69_strings_recovered_partial",
    "C69_titles_refuted"
   ],
   "note": "Proved for every program: the addresses of links are shown as given, and links, bookmarks, fonts and the encryption dictionary are the only objects that hold strings at all. Refuted (kept as theorems): bookmark titles and the registry and ordering of fonts are written in the clear, so a reader, decrypting them, shows something else (computed for a real key and title)."
  },
  {
   "property": "C70",
   "status": "partial",
   "theorems": [
    "C70_as_asked_partial",
    "C70_crop_later_refuted",
    "C70_dash_anew_refuted",
    "C70_dash_memory_refuted",
    "C70_dash_twice_refuted",
    "C70_mask_twice_refuted",
    "C70_memory_partial",
    "C70_points_copied"
   ],
   "note": "Proved: for every program that does not reuse a dash slice, crop or mask after handing it over, the page shows exactly what each call asked for; for every program, polygons and clip paths do so (their points are copied), and no memory but dash slices and masks handed over is changed. Refuted (kept as theorems): SetCustomLineType converts the caller's slice in place and keeps it, so a second use, or a later assignment, changes earlier lines too; a later assignment to CropOptions changes the drawing; a MaskOptions used twice is converted twice and lists its graphics state twice."
  },
  {
   "property": "C71",
   "status": "partial",
   "theorems": [
    "C71_custom_factor_refuted",
    "C71_default_trim_refuted",
    "C71_measured_from_top_partial",
    "C71_own_height_refuted",
    "C71_page_sizes_partial",
    "C71_trim_box_partial",
    "C71_trim_upside_down_refuted",
    "C71_trim_without_size_refuted"
   ],
   "note": "Proved for every program (one document, no SetPage), read from the written page objects: sizes as asked; a trim box given with a page size appears, as asked when it is as far from the top as from the bottom; drawings are measured from the top of their own page, links, anchors and bookmarks on pages of the default height. Refuted (kept as theorems): a trim box without a page size, and Config.TrimBox, are never written; a trim box is measured from the bottom; option sizes ignore Config.ConversionForUnit; links, anchors and bookmarks on pages of their own height are measured from the default height."
  },
  {
   "property": "C72",
   "status": "partial",
   "theorems": [
    "C72_exactly_as_asked",
    "C72_numbers_read",
    "C72_painted_as_asked_exactly"
   ],
   "note": "Proved for every history of shapes, clipping paths, graphics states, colours, images and templates (with undecorated text in between), every unit and every finite float64 argument up to 2^20 points, against the specification of C58 in exact rational arithmetic; Go's cosine and sine are assumed within 2^-28 of the exact ones, the page height a float64 that is used as it is. Where the text of cells is put and their underlines and borders are separate theorems in float64 (C55_float64, C65_float64). Missing: the three as one statement, and how the cursor's own rounding adds up along a line of Text calls."
  },
  {
   "property": "C73",
   "status": "partial",
   "theorems": [
    "C73_cell_after_text_refuted",
    "C73_kerned_join_refuted",
    "C73_placeholder_unit_refuted",
    "C73_position_moves_by_what_is_drawn_partial",
    "C73_text_after_br_refuted",
    "C73_text_after_floating_cell_refuted"
   ],
   "note": "Proved in exact arithmetic for every history of calls in which Br (and a cell without rectangle left floating below or nowhere) is followed by SetX or SetXY, a cell with a rectangle does not directly continue a text, and fonts are added without kerning. Refuted outside (kept as theorems): joined texts are kerned across the joint, a cell with a rectangle that continues a text, text after Br, text after a floating cell, a placeholder given in another unit than points. Missing: float64 rounding."
  },
  {
   "property": "C74",
   "status": "proved",
   "theorems": [
    "C74_answer_from_the_file_bmp",
    "C74_answer_from_the_file_supplementary",
    "C74_answer_is_what_is_drawn",
    "C74_missing_outline_refuted",
    "C74_nothing_to_find"
   ],
   "note": "For every font file the parser accepts, every character, every history of texts and every substitution policy. Remark kept as a theorem: a glyph may exist in the character map without an outline."
  },
  {
   "property": "C75",
   "status": "proved",
   "theorems": [
    "C75_dotless_i_refuted",
    "C75_failure_changes_nothing",
    "C75_large_int_rounded_refuted",
    "C75_size_as_given",
    "C75_succeeds_iff",
    "C75_text_in_the_font_asked_for",
    "C75_underlined_iff_asked"
   ],
   "note": "For every history without fonts registered under the Underline bit (C42), every ASCII style and every finite size. Outside kept as theorems: the style \"\u0131\" counts as italic; 2^53+1 is rounded."
  },
  {
   "property": "C76",
   "status": "partial",
   "theorems": [
    "C76_drawings",
    "C76_opening_the_file",
    "C76_with_setpage"
   ],
   "note": "The reader (OpenSpec.v) works from the bytes alone: startxref, cross-reference table, trailer, catalog, page list, Standard-handler decryption with either password, decompression (any inflate inverse to the compressor), resource names. SetPage included under the conditions of C07 (C76_with_setpage). Missing: masked images, several outputs, objects imported from other files; the text of a drawing (ren) is arbitrary here and pinned down by C55-C58."
  },
  {
   "property": "C77",
   "status": "partial",
   "theorems": [
    "C77_after_setpage_refuted",
    "C77_bookmarks_lead_to_their_pages",
    "C77_link_text",
    "C77_links_lead_to_their_anchors"
   ],
   "note": "For every history without an intermediate output, callbacks and restarts included; the text of an internal link reads as a destination on that page (C77_link_text). Refuted (kept as a theorem): after SetPage, bookmarks and anchors still mark the last page added."
  },
  {
   "property": "C78",
   "status": "partial",
   "theorems": [
    "C78_bookmarks",
    "C78_links",
    "C78_protected_titles_refuted"
   ],
   "note": "Every finishing history without an intermediate output (C78_bookmarks, C78_links), from the bytes of the file alone. Links to names never set have no readable object (C60) and are excluded by hypothesis; the height of a destination is left open. Refuted (kept as a theorem, computed on a real key): the titles of bookmarks in a protected file are written in the clear, so a reader shows something else; the pages and links are still right."
  },
  {
   "property": "C79",
   "status": "partial",
   "theorems": [
    "C79_descriptor",
    "C79_symbolic_refuted"
   ],
   "note": "Every measurement in the descriptor, for every font the parser accepts with a non-zero em; the symbolic flag is refuted: Flags is 32 whatever the cmap says (C79_symbolic_refuted)"
  },
  {
   "property": "C80",
   "status": "partial",
   "theorems": [
    "C80_cell_height",
    "C80_shown_by_the_file",
    "C80_shown_by_the_file_float64",
    "C80_text_width",
    "C80_widths_in_the_file"
   ],
   "note": "All characters the font has, in any plane (glyph numbers below 65536, what two-byte codes can say); exact arithmetic. Missing: fonts with several kerning subtables (C49 refutes those), the kern override callback, letter spacing and justification in the shown-width theorem (C39 and C38 have them). C80_shown_by_the_file_float64: the shown advance and the measured width from the bytes of the font file, in float64."
  },
  {
   "property": "C81",
   "status": "partial",
   "theorems": [
    "C81_text_copied",
    "C81_with_setpage"
   ],
   "note": "Every finishing plain history (no templates or imports; SetPage as in C07: C81_with_setpage), from the bytes of the file alone, protected or not. Missing: characters outside the basic plane and characters that share a glyph (C12 refutes both); that the drawing calls of a page carry the texts is a hypothesis on the page's caches, discharged by drawn_by_calls for every orderly sequence of calls (C40 refutes the others)."
  },
  {
   "property": "C82",
   "status": "partial",
   "theorems": [
    "C82_glyphs_shown",
    "C82_with_setpage"
   ],
   "note": "Every finishing plain history (SetPage as in C07: C82_with_setpage), from the bytes of the file alone: glyph number, width and outline of each character are those of its font file. Missing: composites of composites (C28 refutes them), glyph numbers above 65535; as in C81 the drawing calls are orderly ones (drawn_from_by_calls)."
  },
  {
   "property": "C83",
   "status": "partial",
   "theorems": [
    "C83_owners",
    "C83_pictures",
    "C83_with_setpage"
   ],
   "note": "From the bytes of the written file to the pixels, every PNG kind C37 covers (chunks with data, at most one palette and colour key, eight bits with alpha), plain histories and those with SetPage under the conditions of C07; each soft mask and palette belongs to one picture (C83_owners). JPEG and GIF pictures: C84. Missing: masked drawing, PNG files C37 refutes."
  },
  {
   "property": "C84",
   "status": "partial",
   "theorems": [
    "C84_pictures",
    "C84_plain_inks_refuted",
    "C84_refused",
    "C84_with_setpage"
   ],
   "note": "From the bytes of the written file: JPEG files (described by their header, JpegSpec.v) byte for byte with size, components and colour space, GIF files as the PNG they are converted to; plain histories and those with SetPage under the conditions of C07. Go's image.DecodeConfig is a parameter with a stated contract (knows; conf84 shows it can be met). Refuted (kept as theorems): four-ink files without the Adobe segment come out inverted (C84_plain_inks_refuted); files storing RGB directly are refused (C84_refused). Missing: the GIF decoder and PNG encoder themselves, masked drawing."
  },
  {
   "property": "C85",
   "status": "partial",
   "theorems": [
    "C85_a1_refuted",
    "C85_papers",
    "C85_predefined_size"
   ],
   "note": "Exact MediaBox: every configuration and history, from the text of the written objects (trim boxes with finite numbers). Paper sizes: within one point for all but A1, which is refuted (1685 points wide instead of 1683.78; also one more than the height of A2)."
  }
 ]
}