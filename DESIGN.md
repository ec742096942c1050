# Formal model of signintech/gopdf in Coq — design

## 1. Method

* Every piece of Go is transcribed by hand, function by function, into small total Gallina functions (`*Model.v`). Each
  definition cites the file and lines of `/repo` it models and says where it simplifies.
* Each property has a small *specification* (a `*Spec.v` file, or the section "Specification" at the head of the proof file)
  that does not use the model's helpers: a PDF reader for file layout and object syntax, the PDF literal-string rules,
  UTF-16BE, the cmap and glyf definitions, MD5 and RC4, a page-painting viewer, an abstract "list of pages" machine …
* The property theorems are in `Prop*.v` (and `FontOut*.v`), named `Cnn_…`, each followed by `Print Assumptions` and, per
  property, by an `Example Cnn_met` (or `…_demo`) showing a concrete non-trivial case that meets the hypotheses.
* Where the code violates the property, the theorem is called `…_refuted` and exhibits a witness in the faithful model (or
  proves the failure for every input); beside it stands the strongest true statement.
* A claim is "proved" in MANIFEST.json only if the theorems cover the English statement as written, exact side conditions in
  the note; otherwise "partial", and the note says what is refuted and what is missing.

## 2. Files

| layer | model | specification and proofs |
|---|---|---|
| file: xref, trailer, streams of writes, `Read` | `FileModel` | `FileSpec`, `FileProofs`, `PropFile` |
| document: object table, pages, caches, callbacks, output | `DocModel` | `DocSpec`, `DocProofs`, `DocInv`, `PropDoc`, `PropSetPage`, `PropImage`, `PropName*`, `PropRef*` |
| strings, dates | `StrModel` | `StrSpec`, `PropStr`, `PropDate` |
| protection | `SecModel`, `Crypto` (MD5, RC4 in full) | `SecSpec`, `PropSec`, `PropStream2` |
| stream objects and every other object, byte for byte | `StreamModel`, `ObjModel`, `RefModel` | `StreamSpec`, `PdfSyntax`, `PdfRead`, `PropStream`, `PropObj*` |
| text splitting, paragraphs | `SplitModel`, `MultiModel` | `PropSplit`, `PropMulti` |
| fonts: parser, cmap, hmtx, kern, subset, embedded font | `TtfModel`, `SubsetModel`, `FontOutModel`, `ContainerModel` | `TtfSpec`, `TtfProofs`, `PropTtf`, `PropSubset`, `FontOutSpec`, `FontOut*`, `PropFont`, `PropContainer` |
| numbers: Go's float64 and `%f` printing | `NumModel` (SpecFloat; exact rationals beside it) | `NumRead`, `PaintNum` |
| units, margins, page breaks | `UnitModel` | `PropUnit` |
| content streams | `DrawModel` | `DrawSpec`, `DrawLex`, `DrawNest`, `DrawView`, `PaintSpec`, `DecoSpec`, `PropDraw`, `PropText`, `PropWidth`, `PropAlign`, `PropColour`, `PropPaint`, `PropDeco` |
| transparency, outlines, rounded rectangles, tables, placeholders, Arabic | `TrModel`, `OutlineModel`, `RectModel`, `TableModel`, `PlaceModel`, `ArabicModel` | `Prop…` of the same name |
| images: PNG parser, placement, holders | `PngModel`, `ImgModel`, `HolderModel` | `PropPng`, `PropImagePlace`, `PropHolder` |
| importing pages | `ImportModel` | `PropImport` |
| buffer pool under concurrency | `PoolModel` | `PropPool` |

## 3. Properties: what is proved, where

Per property: status, what the theorems say and what is missing, then the theorems by file (prefix `Cnn_` dropped).

**C01 Cross-reference table locates every object** — proved. All object bodies and trailers, any number of objects; files under 10^10 bytes (the xref entry width).

  `PropFile.v`: `xref_locates_every_object`

**C02 Reported byte count equals bytes delivered** — proved. Any destination honouring the io.Writer contract.

  `PropFile.v`: `complete_when_writer_never_fails`, `count_is_bytes_accepted`

**C03 Write failures are reported** — partial. The English property is false of the code: compilePdf never reports a Write error. Proved: the refutation, for every document and writer.

  `PropFile.v`: `compile_never_reports_errors`, `write_failure_unreported_refuted`

**C04 Page tree lists every page once, in order** — proved. All histories before the first output, including SetPage, masks, callbacks and restarts.

  `PropDoc.v`: `number_of_pages`, `page_tree_lists_every_page_once`

**C05 Producing the document is repeatable** — partial. False of the code: refuted for every document with at least one page (the second output doubles the page tree).

  `PropDoc.v`: `repeat_output_refuted`

**C06 Drawing lands on the page that is current** — partial. Histories without SetPage (with it: C07_histories), masked images (C36), fonts registered with the Underline bit (C42) and earlier output (C05).

  `PropDoc.v`: `draw_changes_only_the_current_page`, `pages_show_what_was_drawn`

**C07 SetPage selects the page asked for** — partial. Errors: every state. Selection: every history (SetPage included) in which each page is drawn on directly after it is added, nothing is drawn before the first page, and there are no callbacks: SetPage succeeds and a drawing changes exactly the n-th page of the output; and for whole histories (C07_histories; no masked image, no link after SetPage) every page of the output shows exactly what was drawn while it was the selected page. Refutations: blank pages, drawing before the first page, links, page height.

  `PropPages.v`: `histories`, `without_setpage`; `PropSetPage.v`: `blank_page_refuted`, `drawing_before_pages_refuted`, `errors`, `links_refuted`, `page_height_refuted`, `setpage_selects_partial`

**C08 Streaming reads deliver exactly the document** — proved. Any sequence of buffer sizes.

  `PropFile.v`: `reads_deliver_document`

**C09 Start begins a fresh document** — partial. Proved for all state except the page counter and header/footer callbacks, which survive Start; refuted for GetNumberOfPages.

  `PropDoc.v`: `start_fresh_partial`, `start_fresh_refuted`

**C10 String literals survive escaping** — proved. All byte strings, whatever follows the literal.

  `PropStr.v`: `escaped_literal_reads_back`

**C11 Document metadata is encoded faithfully** — partial. Proved for all texts of BMP characters (through Go's UTF-8 iteration); refuted for every character above U+FFFF.

  `PropStr.v`: `info_texts_read_back_partial`, `supplementary_character_refuted`

**C12 Text can be copied back out** — partial. Proved when no two drawn characters share a glyph; refuted for shared glyphs (first registered character wins) and for characters above U+FFFF.

  `PropStr.v`: `shared_glyph_refuted`, `supplementary_character_refuted`, `text_copies_back_distinct_glyphs_partial`, `tounicode_gives_first_character`

**C13 Encryption is invertible and length-preserving** — proved. End to end through the written encryption dictionary, MD5 and RC4 written out in full; permission words below 256 and object numbers below 2^24.

  `PropSec.v`: `key_material_distinct`, `key_material_is_standard`, `reader_recovers_data`

**C14 Protection dictionary reflects passwords and permissions** — proved. Permission word for every combination of the four permissions, opening with user and owner password of any length; a refutation shows that permission bits above the low byte break the file.

  `PropSec.v`: `high_permission_bits_refuted`, `password_padding`, `passwords_open_the_file`, `permission_word`

**C15 Everything in a protected document is encrypted** — partial. Proved for every object kind except transparency groups (refuted: never encrypted) and imported objects (refuted: C15_imported_refuted, written in the clear); for every history of SetProtection and object-adding calls the key each stream is encrypted with is determined (C54_which_key).

  `PropForm.v`: `imported_refuted`; `PropStream.v`: `link_url_encrypted`, `streams_encrypted_partial`, `transparency_group_refuted`

**C16 Outline entries form one list in call order** — proved. All histories whose header/footer callbacks add no outline entries; includes repeated output.

  `PropDoc.v`: `outline_list`

**C17 Outline entries name the outline dictionary as parent** — partial. False of the code: refuted for every document with an outline (Parent names the page tree, object 2).

  `PropDoc.v`: `parent_refuted`

**C18 Nested outlines link consistently** — partial. Every forest over distinct outlines of a document, any depth and width: Next, First, Last everywhere, Parent and Prev below the top level, no Prev on the first. The top level's Prev is characterised exactly (creation order) and refuted, as is the outline dictionary's Last. C18_root_ends_partial, C18_root_flat: the outline dictionary's First and Last are the first and last item added, so they are right for an outline without nesting (for nested ones see C18_root_last_refuted).

  `PropOutline.v`: `nested_links_partial`, `root_ends_partial`, `root_flat`, `root_last_refuted`, `top_level_prev_refuted`, `top_prev_partial`

**C19 Unit conversion is lossless and uniform** — partial. Round trip, factors, rectangles and boxes over exact arithmetic for every predefined unit; refuted: Config.ConversionForUnit is ignored by Rect/Box conversion, and the float64 round trip is not exact (but every float64 conversion and round trip is proved to be within one part in 2^51 of the exact one, for magnitudes from 2^-990 to 2^990).

  `PropUnit.v`: `box_uniform`, `br`, `conversion_factor`, `custom_factor_rect_refuted`, `custom_factor_witness_refuted`, `float_round_trip_refuted`, `getters`, `rect_back`, `rect_round_trip`, `rect_uniform`, `round_trip`; `PropUnitF.v`: `float64_conversions`, `getters_float64`

**C20 Automatic page break keeps content inside the margins** — partial. SetNewY and friends break exactly when the limit is passed, in points; refuted for other units (the position is converted twice / compared with points).

  `PropUnit.v`: `break_condition`, `new_xy_points`, `new_y_points`, `new_y_refuted`, `no_offset_points`, `units_refuted`

**C21 Text splitting loses nothing and respects the width** — partial. Nothing lost: every text, option, width and measure function. Width bound: without separator and for subadditive widths; with a separator that fits, in both modes and the separator included, when a text is not wider than one it ends (or, in strict mode, begins). Refuted for positive kerning.

  `PropSplit.v`: `all_modes_fit_partial`, `all_modes_fit_widths`, `lines_fit_partial`, `lines_reassemble`, `positive_kerning_refuted`, `separated_lines_fit_partial`, `separated_lines_fit_widths`, `strict_concat`

**C22 Text splitting terminates** — partial. Exact characterisation without separator (returns iff no character is wider than the line); refuted for wide characters and, with a separator, by a livelock and a panic.

  `PropSplit.v`: `returns_iff`, `returns_when_characters_fit_partial`, `separator_livelock_refuted`, `separator_panic_refuted`, `wide_character_refuted`

**C23 MultiCell agrees with IsFitMultiCell and draws all text** — proved. Any width function and any float-like height arithmetic.

  `PropSplit.v`: `fit_draws_everything`, `multicell_draws_prefix`

**C24 Every drawn character has a glyph** — proved. Any font, any substitution policy, any earlier texts. A refutation notes that characters the cmap explicitly maps to glyph 0 are not treated as missing.

  `PropSubset.v`: `add_chars`, `add_chars_total`, `mapped_to_notdef_refuted`

**C25 Character lookup follows the cmap table** — proved. Format 4 and format 12, for every font the parser accepts. C25_chars_of_segments: the exported character list (TTFParser.Chars) holds exactly the characters below U+FFFF that a segment maps to a glyph other than 0, with that glyph. C25_chars_agree_with_lookup: where segments do not overlap, the exported list and the lookup agree (on characters whose lookup does not panic).

  `PropChars.v`: `chars_agree_with_lookup`, `chars_of_segments`; `PropTtf.v`: `bmp_lookup_follows_cmap`, `no_supplementary_subtable`, `supplementary_lookup_follows_cmap`

**C26 Character lookup never crashes** — partial. Proved for fonts whose cmap ends with the 0xFFFF segment and whose range offsets stay inside; refuted otherwise (panic).

  `PropTtf.v`: `lookup_safe_partial`, `no_final_segment_refuted`, `range_offset_refuted`

**C27 Glyph widths come from hmtx** — partial. Proved for every accepted font with unitsPerEm > 0; refuted for unitsPerEm = 0 (division by zero). The /W array carries these widths.

  `PropSubset.v`: `width_array_complete`; `PropTtf.v`: `width_from_hmtx`, `width_total`, `zero_em_refuted`

**C28 Embedded font subset is closed under components** — partial. Proved for used glyphs and their direct components (complete when composites are not nested); refuted for nested composites.

  `PropFont.v`: `closed_without_nesting_partial`, `nested_components_refuted`

**C29 Embedded glyph data is intact** — proved. Every accepted font; used glyphs and direct components byte for byte, all others empty, loca monotone and inside glyf; output succeeds for readable outlines.

  `PropFont.v`: `embedded_outlines_intact`, `every_glyph_readable`, `other_outlines_empty`, `output_succeeds`

**C30 Embedded font directory is consistent** — proved. Embedded fonts under 2^32 bytes. Rebuilt tables carry their checksum; copied tables carry the checksum stored in the source font.

  `PropFont.v`: `checksums`, `copied_tables`, `directory`

**C31 Binary buffer writes are exact** — proved. All buffers, positions and values.

  `PropFont.v`: `sequential`, `values_read_back`, `write_exact`

**C32 Graphics state is balanced** — partial. Every drawing call that leaves a page's q/Q and BT/ET balanced: proved for every history whose Save/Restore and clip calls are paired and whose polygons are non-empty; also prefix property; refuted for an empty polygon or clip polygon.

  `PropDraw.v`: `balanced`, `empty_polygon_refuted`, `prefix`

**C33 Stream length entry is the stream length** — proved. All nine kinds of stream object, any compressor output, with and without protection.

  `PropStream.v`: `stream_length_is_exact`

**C34 Colours are in range** — partial. RGB from uint8, CMYK components at most 100, gray not NaN: every colour operand written denotes a number in [0,1]; refuted for CMYK above 100 and for NaN gray.

  `PropColour.v`: `cmyk_refuted`, `gray_nan_refuted`, `in_range`

**C35 Transparency is validated and shared correctly** — partial. All histories of settings and drawings over float64 alphas, with the ExtGState pointers modelled: carried values and sharing proved when the caller does not later write to a Transparency passed by pointer and combines alpha 1 with /Normal only; refutations show both restrictions are needed and that NaN passes validation.

  `PropTransp.v`: `drawings_carry_their_transparency_partial`, `later_assignment_refuted`, `masks_own_state`, `nan_accepted_refuted`, `newtransparency_partial`, `opaque_blend_mode_refuted`, `sharing`

**C36 Images are embedded once and referenced correctly** — partial. All histories (callbacks, SetPage, repeated output included) in which every image source keeps its content and one use (plain, under a mask, as a mask): each drawing refers to its own data to the end, masks included, and a source is embedded once. Refutations: a source used in two ways gets the first way's object.

  `PropImage.v`: `alpha_lost_refuted`, `embedded_once_partial`, `image_refers_to_its_data_partial`, `mask_source_drawn_refuted`, `masked_image_refers_to_both_partial`

**C37 PNG alpha separation is lossless** — partial. From the file's bytes to the two image objects, for every size, filter type and pixel value, zlib any inverse pair: the pixels a PDF reader reconstructs (Predictor 15) are the PNG's. Needs chunks with data: an empty chunk ends the reading (refuted), short data panic (refuted), a palette of white-space bytes is rejected (refuted).

  `PropPng.v`: `accepted_files`, `alpha_recombines_partial`, `dark_palette_refuted`, `empty_chunk_refuted`, `opaque_png_partial`, `short_data_refuted`

**C38 Text justification fills the width exactly** — proved. Exact arithmetic, no letter spacing, orderly histories: pen position of every character, total within half a thousandth of the size per gap (the step is an integer in the stream), end spaces untouched, no gap or no room leaves the text as is. C38_float64: the same in float64 for widths up to 2^20 points and sizes from a thousandth of a point: with m the value MeasureTextWidth returns, m plus the steps misses the width by at most size/2000 per gap plus 2^-28 point, and the steps vanish when m is no less than the width or there is no gap; the size in the stream is the one set to three decimals (exactly it when it has at most three).

  `PropJustF.v`: `float64`; `PropWidth.v`: `justified_fills`

**C39 Measured width equals drawn advance** — partial. Exact arithmetic, orderly histories: measured = drawn exactly without letter spacing; with spacing bounded by size/upem + size/1000 per character, and exact equality refuted. C39_float64: in float64, without letter spacing, the advance the viewer shows is u thousandths of an em of the size written and MeasureTextWidth returns u thousandths of the size set, to one part in 2^51; the size written is the size set to three decimals.

  `PropWidth.v`: `measured_is_drawn`, `spacing_refuted`; `PropWidthF.v`: `float64`

**C40 Consecutive text keeps its attributes** — partial. Every orderly history (each piece shown with the font, size, colour, text state in force at its call; C40_in_force states the look from the calls alone); refuted in four ways: Text after Cell, nil-rectangle cell, Br(0), and gray followed by colour.

  `PropForce.v`: `in_force`; `PropText.v`: `attributes`, `br_zero_refuted`, `gray_then_colour_refuted`, `nil_cell_then_text_refuted`, `text_then_cell_refuted`

**C41 Links are placed on their page** — partial. Proved for the page and for rectangles relative to the default page height, for every finishing history (C41_links_of_every_page: SetPage, masks and callbacks included); refuted for pages with their own size.

  `PropDoc.v`: `link_on_current_page_partial`, `own_page_size_refuted`; `PropLinks.v`: `links_of_every_page`

**C42 Font selection is exact and atomic** — partial. Proved when fonts are registered without the Underline bit; a refutation shows the restriction is needed.

  `PropDoc.v`: `failed_setfont_changes_nothing`, `setfont_succeeds_iff_added`, `text_uses_selected_font`, `underline_registration_refuted`

**C43 Compression level setting is honoured** — partial. Proved for levels up to 9; refuted above 9 (level left unchanged instead of BestCompression).

  `PropDoc.v`: `compress_level_above_refuted`, `compress_level_partial`

**C44 Rectangle arguments are validated** — partial. Exact arithmetic: error exactly for inverted/empty coordinates or (when corners are rounded) a radius above a side, with nothing drawn; otherwise exactly one polygon, the angle loop terminating for every point count. Float64, any arguments, counts below 2^24: the same with float comparisons, the loop ends, the points per corner are as asked or one more. Refuted in float64: 12 points asked give 13; counts from 2^55 never return. Missing: counts from 2^24 to 2^55.

  `PropRect.v`: `rectangle_validates`, `rectangle_validates_float64_partial`; `PropRectF.v`: `never_returns_refuted`, `point_count_refuted`, `rectangle_validates_float64`

**C45 Imported objects keep their numbers** — proved. Any state, any imported object map numbered from GetNextObjectID.

  `PropDoc.v`: `imported_objects_keep_their_numbers`

**C46 Colour spaces are unique by name** — partial. Errors and selection proved; "leaves the document unchanged" refuted.

  `PropDoc.v`: `duplicate_name_is_an_error`, `setcolorspace_succeeds_iff_added`, `unchanged_on_error_refuted`

**C47 Table layout matches the rows** — partial. proved with exact arithmetic for tables with at most maxRows rows: when DrawTable succeeds the page gets exactly the header, rows, empty filler cells and frames, each cell at the place its row and column give; the places tile the table; it succeeds iff no row is longer than the columns (text layer without errors). Refuted: more rows than maxRows leave the frame, long rows panic, short rows leave holes, padding makes negative boxes, the header font leaks into cells, text lines leave the cell, float64 frames drift. Errors of the text layer end the drawing and are returned, in any arithmetic C47_built_as_called: the columns and rows drawn are those of the AddColumn, AddRow and AddStyledRow calls, in order.

  `PropTable.v`: `built_as_called`, `cells_tile_the_table`, `draws_the_table_partial`, `errors_reported`, `float64_frame_refuted`, `frame_encloses_rows_refuted`, `header_font_refuted`, `long_row_refuted`, `padding_refuted`, `short_row_refuted`, `succeeds_iff_rows_fit`, `text_leaves_cell_refuted`

**C48 Arabic shaping preserves text** — partial. Every byte string not beginning with a mark, every map order: nothing lost, marks with their letter, right-to-left, and the required contextual form outside four neighbourhoods. Refutations: leading mark dropped; letters after jeh, dual letters before hamza and teh marbuta inside a word get a wrong form; "Allah" inside a longer word cuts the joining; digits and Latin are reversed.

  `PropArabic.v`: `allah_inside_word_refuted`, `arabic_shaping_partial`, `arabic_text_partial`, `contextual_forms_refuted`, `latin_order_refuted`, `leading_mark_refuted`

**C49 Kerning table is read completely** — partial. Proved for a single format-0 subtable; refuted for several subtables and other formats.

  `PropTtf.v`: `format2_misread_refuted`, `single_subtable_partial`, `two_subtables_refuted`

**C50 Font file reading is bounds-safe** — partial. Proved: every byte read is in the file, truncation is an error or harmless, no panic when numberOfHMetrics > 0; refuted for numberOfHMetrics = 0, and a font cut inside glyf is accepted and panics on output.

  `PropFont.v`: `truncated_outlines_refuted`; `PropTtf.v`: `no_panic_partial`, `reads_are_in_the_file`, `truncation_is_an_error_or_harmless`, `zero_hmetrics_panic_refuted`

**C51 Placeholders are filled once in place** — partial. for every history: a filled placeholder writes exactly what Text would have written at reservation time, moved by the alignment offset, if the current font at filling is the reserving font, no underline and no substituted character; unknown names are errors; filling changes only placeholders; alignment proved with points as the unit. Refuted: second filling shifts again, other units convert the wrong way, another current font is used for measuring, substitutes disappear, underline has width 0

  `PropPlace.v`: `aligned_in_points`, `cursor_after`, `filled_as_text_partial`, `fills_only_places`, `names`, `other_font_refuted`, `second_filling_refuted`, `substitute_refuted`, `underline_refuted`, `units_refuted`, `unknown_name`

**C52 Header and footer run once per page** — proved. Any number of pages; drawing callbacks on the page, cursor for arbitrary callbacks.

  `PropDoc.v`: `cursor_restored`, `header_footer_run_once_per_page`

**C53 Font containers isolate documents** — proved. heap model with shared pointers: for every interleaving of operations of any number of documents and the container, a document's fonts, embedded characters and returned results equal those of the run without the other documents; a font from the container equals the font added directly. The parsed font data is treated as immutable (no code writes it after parsing)

  `PropContainer.v`: `characters_from_container`, `documents_isolated`, `font_from_container`

**C54 SetProtection yields a readable protected document** — partial. For every history: which stream is encrypted with the protection in force at writing, at adding, or never (C54_which_key); all under one key if protection is set before anything is added. The full claim is false of the code: refuted for the SetProtection method without Config.Protection (no encryption dictionary), and for a late SetProtection.

  `PropStream.v`: `late_setprotection_refuted`, `setprotection_method_refuted`; `PropStream2.v`: `one_key`, `which_key`

**C55 Cell text is placed as the alignment says** — proved. Orderly histories. Exact arithmetic (C55_alignment), and float64 (C55_float64): the printed position is within 0.005001 points of the aligned one for every cell whose numbers are finite and at most 2^20 points, size at most 4096.

  `PropAlign.v`: `alignment`; `PropAlignF.v`: `float64`

**C56 A rounded rectangle stays inside its corners** — partial. Exact arithmetic: all points inside for any cosine and sine between 0 and 1 on the first quadrant; the points are those of four quarter circles of the given radius at equal angles, corner after corner; without rounding the four corners in order (any arithmetic). Refuted: float64 gives 13 points for 12; corners cross for radii between half a side and the side.

  `PropRect.v`: `corner_points_float64_refuted`, `corners_may_cross_refuted`, `drawn_inside`, `plain_outline`, `rounded_outline`

**C57 A truncated PNG file is rejected** — partial. Every well-formed PNG whose chunks have data, cut anywhere before the type of its end chunk.

  `PropPng.v`: `truncated_png_rejected_partial`

**C58 Shapes appear as asked, in the state asked for** — partial. for float64 (or any number type) and every history of calls with undecorated text: the marks a viewer paints, with their graphics state, are those asked for (fill colour unspecified after coloured text); exactly so without text colours and with the current transparency off for the four simple shapes; printed numbers are within half a unit of the last decimal. Refuted: text colour leaks into later fills, RectFromLowerLeft/UpperLeft, Oval and Curve ignore the current transparency. Underlines and cell borders: C65. Rounding of coordinates: C72

  `PaintNum.v`: `numbers_read`; `PropPaint.v`: `exactly_as_asked`, `painted_as_asked`, `text_colour_leaks_refuted`, `transparency_skipped_refuted`

**C59 Images appear where, and as large, as asked** — partial. exact arithmetic and float64, every history of calls: each point of the image lands within 1/100 point of where asked (in float64 1/99, against exact arithmetic), turned about the middle of the visible box; the crop box likewise; transparency as asked. Refuted: crop lengths are taken as points, a second drawing without rectangle takes the size of the first, one-pixel images get size zero, Image/ImageFrom ignore the current transparency. Masks: the mask's group shows its image where asked; the masked image likewise, turned by both angles about the middle of its rectangle, unless it is both mirrored and turned; the mask lives in the coordinates in force. Refuted: turning the mask turns the picture, a mirrored and turned picture under a mask is thrown off the page, its crop is not turned, one image used as mask and picture is the mask's object. Missing: masked images in float64; Go's cosine and sine are assumed within 2^-28 of the exact ones

  `PropImagePlace.v`: `crop_in_points_refuted`, `image_where_asked_partial`, `natural_size`, `one_pixel_vanishes_refuted`, `plain_image_where_asked`, `second_size_refuted`, `transparency_skipped_refuted`; `PropImagePlaceF.v`: `image_where_asked_float64_partial`, `plain_image_where_asked_float64`, `same_image_float64`, `same_plain_image_float64`; `PropMaskPlace.v`: `crop_not_turned_under_mask_refuted`, `mask_is_picture_refuted`, `mask_turns_picture_refuted`, `mask_where_asked_partial`, `masked_image_partial`, `masked_like_plain`, `mirrored_under_mask_refuted`

**C60 Every object says what it should, in PDF syntax** — partial. every kind of object gopdf writes, for all field values with finite numbers: the object reads as the dictionary, array or stream wanted, no entry twice. Refuted: a page written a second time has two content references outside an array, family and colour space names are written unescaped, links to unknown anchors are empty, masks from indexed images are not gray. The descriptor's numbers are the exact ratios rounded half away from zero although computed in float64. Missing: imported objects, infinite or NaN numbers

  `PropDesign.v`: `design_units`; `PropObj.v`: `catalog`, `cidfont`, `descriptor`, `family_name_refuted`, `font`, `gstate`, `outline`, `outlines`, `page_partial`, `pages`, `resources`, `second_write_page_refuted`, `softmask`; `PropObj2.v`: `cmyk_space`, `content`, `embedfont`, `encryption`, `external_link`, `fontfile`, `group`, `image`, `indexed_mask_refuted`, `internal_link`, `mask_image`, `mask_image_gray_partial`, `palette`, `rgb_space`, `smask`, `space_name_refuted`, `tounicode`, `unknown_anchor_refuted`; `PropObj3.v`: `distinct_entries`, `trailer`

**C61 Every reference in the file leads to the right kind of object** — partial. every history of calls that do not panic: each reference in the text of each object the reader can take apart has generation 0 and leads to an object of the kind its key asks for; with bookmarks and anchors set only while a page exists no destination is lost (shown necessary). Exceptions: the parent of a bookmark (C17), the palette of an indexed picture used as a mask. Missing: inside imported objects

  `PropRef2.v`: `destinations`, `references_resolve`, `roots`

**C62 The creation date names the instant that was set** — partial. proved for zones a whole number of hours from UTC; refuted for all other zones (minutes of the zone are dropped) and for years after 9999

  `PropDate.v`: `creation_date_partial`, `date_in_trailer`, `date_read`, `late_years_refuted`, `other_zones_refuted`

**C63 Every name in a page's content is defined, once, and means what was asked** — partial. every history of calls that do not panic: every font, image, graphics-state and colour-space name in every content object is defined exactly once in the resources object the pages name, leading to an object of that kind; texts and images name the graphics state asked for last (and keep it until written). The side condition on template names is shown necessary. Template names: C67_templates_resolve. Missing: the content of mask groups (which have no resources)

  `PropName2.v`: `names_resolve`, `transparency_image`, `transparency_text`

**C64 A paragraph is drawn line by line, every line where it belongs** — partial. exact arithmetic, gopdf's own units, every history of calls ending with SetX or SetXY: both functions, from the split lines to the page as a reader shows it (which lines these are is C21-C23). Missing: Config.ConversionForUnit (C19 refutes its uniform use), float64 rounding, and pages other than the current one.

  `PropMulti.v`: `measured_in_units`, `paragraph`, `paragraph_with_option`, `transparency`

**C65 Borders and underlines are drawn where, and as, asked** — partial. for float64 (or any number type) and every history in which no text directly continues another: the marks painted, with their graphics states, are exactly the shapes, borders and underlines asked for, where the underline runs along the whole box and is measured from the line C65_underline_baseline gives. C65_float64: those of a cell with a rectangle are, number by number, within a millionth of a point of exact arithmetic's (modest fonts, sizes up to 512, coefficients up to 256). Refuted: "under the text and as long as the text" for alignments other than top and left and for Text; a nil-rectangle cell after a Text loses its border.

  `PropDeco.v`: `decorations_as_asked`, `merged_border_refuted`, `one_cell`, `underline_alignment_refuted`, `underline_baseline`, `underline_of_text_refuted`; `PropDecoF.v`: `float64`

**C66 A picture drawn shows the bytes handed over** — partial. Proved for programs over many documents, holders and files: every successful unmasked draw refers to the end to the bytes handed over; the same picture again adds nothing and reads nothing; a fresh holder of a decodable image draws. Refuted (kept as theorems): a holder drawn in a second document is an error (its buffer is drained), a rewritten file shows the old picture, a path spelt like a digest shows the other picture. Not covered: masks (see C36), images inside header/footer callbacks.

  `PropHolder.v`: `digest_name_refuted`, `fresh_holder_draws`, `image_shows_its_bytes`, `rewritten_file_refuted`, `same_picture_once`, `second_document_refuted`

**C67 Importing the pages of another PDF** — partial. Proved for every program mixing imports with other calls: the pages shown, success exactly if every page has the box (no callbacks), and every template name leads to the imported form of that name in the written file. The reading library gofpdi is a parameter with a stated contract (dense object numbers from the one given, names lead to forms); that it meets it is not proved. Refuted (kept as theorems): an error leaves earlier pages in the document; imported pages get the document's size, and sizes in points are taken as units.

  `PropImport.v`: `error_midway_refuted`, `imported_pages`, `one_page_each`, `size_refuted`, `success`, `templates_resolve`

**C68 Documents can be written at the same time** — proved. Every schedule of any number of writing goroutines, each buffer operation a step of its own, any choice of sync.Pool, collection and failing destinations: what is written is a beginning of what the document writes alone, and all of it at the end. Modelled: the four write methods that borrow a buffer, instruction by instruction; the other methods share nothing. Memory model: each buffer operation and pool operation is atomic (sync.Pool is; a held buffer is touched by its holder only, which is a theorem).

  `PropPool.v`: `buffers_are_not_shared`, `no_waiting`, `written_as_if_alone`

**C69 The strings of a protected document** — partial. Proved for every program: the addresses of links are shown as given, and links, bookmarks, fonts and the encryption dictionary are the only objects that hold strings at all. Refuted (kept as theorems): bookmark titles and the registry and ordering of fonts are written in the clear, so a reader, decrypting them, shows something else (computed for a real key and title).

  `PropSecStr.v`: `strings_recovered_partial`, `titles_refuted`

**C70 A drawing is fixed by its arguments at the call** — partial. Proved: for every program that does not reuse a dash slice, crop or mask after handing it over, the page shows exactly what each call asked for; for every program, polygons and clip paths do so (their points are copied), and no memory but dash slices and masks handed over is changed. Refuted (kept as theorems): SetCustomLineType converts the caller's slice in place and keeps it, so a second use, or a later assignment, changes earlier lines too; a later assignment to CropOptions changes the drawing; a MaskOptions used twice is converted twice and lists its graphics state twice.

  `PropArg.v`: `as_asked_partial`, `crop_later_refuted`, `dash_anew_refuted`, `dash_memory_refuted`, `dash_twice_refuted`, `mask_twice_refuted`, `memory_partial`, `points_copied`

**C71 Every page has the size and trim box asked for** — partial. Proved for every program (one document, no SetPage), read from the written page objects: sizes as asked; a trim box given with a page size appears, as asked when it is as far from the top as from the bottom; drawings are measured from the top of their own page, links, anchors and bookmarks on pages of the default height. Refuted (kept as theorems): a trim box without a page size, and Config.TrimBox, are never written; a trim box is measured from the bottom; option sizes ignore Config.ConversionForUnit; links, anchors and bookmarks on pages of their own height are measured from the default height.

  `PropPage.v`: `custom_factor_refuted`, `default_trim_refuted`, `measured_from_top_partial`, `own_height_refuted`, `page_sizes_partial`, `trim_box_partial`, `trim_upside_down_refuted`, `trim_without_size_refuted`

**C72 Rounding in float64 does not move what is drawn** — partial. Proved for every history of shapes, clipping paths, graphics states, colours, images and templates (with undecorated text in between), every unit and every finite float64 argument up to 2^20 points, against the specification of C58 in exact rational arithmetic; Go's cosine and sine are assumed within 2^-28 of the exact ones, the page height a float64 that is used as it is. Where the text of cells is put and their underlines and borders are separate theorems in float64 (C55_float64, C65_float64). Missing: the three as one statement, and how the cursor's own rounding adds up along a line of Text calls.

  `PropDrawF.v`: `exactly_as_asked`, `numbers_read`, `painted_as_asked_exactly`

**C73 The position (GetX, GetY) moves by what was drawn** — partial. Proved in exact arithmetic for every history of calls in which Br (and a cell without rectangle left floating below or nowhere) is followed by SetX or SetXY, a cell with a rectangle does not directly continue a text, and fonts are added without kerning. Refuted outside (kept as theorems): joined texts are kerned across the joint, a cell with a rectangle that continues a text, text after Br, text after a floating cell, a placeholder given in another unit than points. Missing: float64 rounding.

  `PropCursor.v`: `cell_after_text_refuted`, `kerned_join_refuted`, `placeholder_unit_refuted`, `position_moves_by_what_is_drawn_partial`, `text_after_br_refuted`, `text_after_floating_cell_refuted`

**C74 IsCurrFontContainGlyph tells what drawing will do** — proved. For every font file the parser accepts, every character, every history of texts and every substitution policy. Remark kept as a theorem: a glyph may exist in the character map without an outline.

  `PropAsk.v`: `answer_from_the_file_bmp`, `answer_from_the_file_supplementary`, `answer_is_what_is_drawn`, `missing_outline_refuted`, `nothing_to_find`

**C75 SetFont takes any number for size and any style letters** — proved. For every history without fonts registered under the Underline bit (C42), every ASCII style and every finite size. Outside kept as theorems: the style "ı" counts as italic; 2^53+1 is rounded.

  `PropAsk.v`: `dotless_i_refuted`, `failure_changes_nothing`, `large_int_rounded_refuted`, `size_as_given`, `succeeds_iff`, `text_in_the_font_asked_for`, `underlined_iff_asked`

**C76 Opening the written file from its bytes shows the pages drawn** — partial. The reader (OpenSpec.v) works from the bytes alone: startxref, cross-reference table, trailer, catalog, page list, Standard-handler decryption with either password, decompression (any inflate inverse to the compressor), resource names. SetPage included under the conditions of C07 (C76_with_setpage). Missing: masked images, several outputs, objects imported from other files; the text of a drawing (ren) is arbitrary here and pinned down by C55-C58.

  `PropOpen.v`: `drawings`, `opening_the_file`; `PropPages2.v`: `with_setpage`

**C77 Bookmarks and links to anchors lead to the page they were set on** — partial. For every history without an intermediate output, callbacks and restarts included; the text of an internal link reads as a destination on that page (C77_link_text). Refuted (kept as a theorem): after SetPage, bookmarks and anchors still mark the last page added.

  `PropMarks.v`: `after_setpage_refuted`, `bookmarks_lead_to_their_pages`, `link_text`, `links_lead_to_their_anchors`

**C78 Opening the written file from its bytes shows the bookmarks and links set** — partial. Every finishing history without an intermediate output (C78_bookmarks, C78_links), from the bytes of the file alone. Links to names never set have no readable object (C60) and are excluded by hypothesis; the height of a destination is left open. Refuted (kept as a theorem, computed on a real key): the titles of bookmarks in a protected file are written in the clear, so a reader shows something else; the pages and links are still right.

  `PropOpen2.v`: `bookmarks`, `links`, `protected_titles_refuted`

**C79 The font descriptor carries the measurements of the font file** — partial. Every measurement in the descriptor, for every font the parser accepts with a non-zero em; the symbolic flag is refuted: Flags is 32 whatever the cmap says (C79_symbolic_refuted)

  `PropFace.v`: `descriptor`, `symbolic_refuted`

**C80 Texts are measured, and shown, with the advance widths of the font file** — partial. All characters the font has, in any plane (glyph numbers below 65536, what two-byte codes can say); exact arithmetic. Missing: fonts with several kerning subtables (C49 refutes those), the kern override callback, letter spacing and justification in the shown-width theorem (C39 and C38 have them). C80_shown_by_the_file_float64: the shown advance and the measured width from the bytes of the font file, in float64.

  `PropFace.v`: `cell_height`, `shown_by_the_file`, `text_width`, `widths_in_the_file`; `PropFaceF.v`: `shown_by_the_file_float64`

**C81 The text of every page can be copied out of the written file** — partial. Every finishing plain history (no templates or imports; SetPage as in C07: C81_with_setpage), from the bytes of the file alone, protected or not. Missing: characters outside the basic plane and characters that share a glyph (C12 refutes both); that the drawing calls of a page carry the texts is a hypothesis on the page's caches, discharged by drawn_by_calls for every orderly sequence of calls (C40 refutes the others).

  `PropCopy.v`: `text_copied`; `PropPages3.v`: `with_setpage`

**C82 Every character is shown with the outline and the width of its font file** — partial. Every finishing plain history (SetPage as in C07: C82_with_setpage), from the bytes of the file alone: glyph number, width and outline of each character are those of its font file. Missing: composites of composites (C28 refutes them), glyph numbers above 65535; as in C81 the drawing calls are orderly ones (drawn_from_by_calls).

  `PropGlyph.v`: `glyphs_shown`; `PropPages3.v`: `with_setpage`

**C83 Pixels of PNG pictures survive into the written file** — partial. From the bytes of the written file to the pixels, every PNG kind C37 covers (chunks with data, at most one palette and colour key, eight bits with alpha), plain histories and those with SetPage under the conditions of C07; each soft mask and palette belongs to one picture (C83_owners). JPEG and GIF pictures: C84. Missing: masked drawing, PNG files C37 refutes.

  `PropPic.v`: `owners`, `pictures`, `with_setpage`

**C84 JPEG and GIF pictures survive into the written file** — partial. From the bytes of the written file: JPEG files (described by their header, JpegSpec.v) byte for byte with size, components and colour space, GIF files as the PNG they are converted to; plain histories and those with SetPage under the conditions of C07. Go's image.DecodeConfig is a parameter with a stated contract (knows; conf84 shows it can be met). Refuted (kept as theorems): four-ink files without the Adobe segment come out inverted (C84_plain_inks_refuted); files storing RGB directly are refused (C84_refused). Missing: the GIF decoder and PNG encoder themselves, masked drawing.

  `PropPic2.v`: `pictures`, `plain_inks_refuted`, `refused`, `with_setpage`

**C85 A predefined page size is the paper it is named after, in any unit** — partial. Exact MediaBox: every configuration and history, from the text of the written objects (trim boxes with finite numbers). Paper sizes: within one point for all but A1, which is refuted (1685 points wide instead of 1683.78; also one more than the height of A2).

  `PropPaper.v`: `a1_refuted`, `papers`, `predefined_size`

## 4. Trusted base

* The Coq 8.16.1 kernel (`vm_compute` included; `native_compute` is not used). The compiled files are also accepted by `coqchk`.
* Axioms: none of our own. `Print Assumptions` stands in the sources after each theorem of section 3 and answers "Closed under
  the global context" for all of them **except** the theorems that speak about float64 as real numbers (files `PropDesign.v`, `PropFace.v`,
  `PropRectF.v`, `PropUnitF.v` and the other files that import `FloatReal.v`), which use the standard library's real numbers and
  so list its axioms: `ClassicalDedekindReals.sig_not_dec`, `ClassicalDedekindReals.sig_forall_dec`,
  `FunctionalExtensionality.functional_extensionality_dep` and `Classical_Prop.classic`. Flocq, on which these proofs rest,
  adds no axiom. (A whole-library listing also shows module-type fields of the standard library: the real numbers' sealed
  definitions `Coq.Reals.Rdefinitions.RbaseSymbolsImpl.*` and `RinvImpl.*`, and seven fields `Coq.ssr.ssrunder.Under_rel.*` of the
  ssreflect files, loaded but used by no theorem.) No axiom, parameter, functor, module type or
  unfinished proof is defined here; section variables are discharged, so what a theorem needs stands in its statement.
* The hand transcription Go → Gallina, checked only by reading and by the seeded-bug experiments of section 6.
* Go's own semantics as assumed by the model: strings as byte lists with the UTF-8 iteration of `range`, `append` on slices
  (aliasing modelled only where it matters: C35, C36, C53, C70), maps as association lists (iteration order quantified where a
  result could depend on it), integers unbounded except where the code's conversion to a sized type matters (fonts, PNG, Buff,
  permissions), float64 as IEEE binary64 (SpecFloat, round to nearest even), `fmt`'s `%d %x %s %f %.Nf` verbs as written out in
  `Base`/`NumModel`, one thread (except C53 and C68, which interleave).

## 5. What is not modelled

* zlib: any pair of functions that are inverse to one another (C37) or any function (C33). Go's image decoders: any function
  giving width, height and colour model (C84: its contract is `knows`); JPEG data are passed through unread.
* `gofpdi`: an oracle with the contract `fpdi_page` (C67); its objects are arbitrary text in the file layer.
* The file system: reading a path gives some bytes or an error (C66 lets files change between calls).
* `math.Sin`, `math.Cos`, `math.Pow10`: any functions (with values between 0 and 1 on the first quadrant in C56).
* The parsed font is treated as immutable after parsing (no code in `/repo` writes it).
* The command-line tool `fontmaker` (a separate program that writes Go source for the old, unused core-font path) and the dead
  code of that path (`font_obj.go`, `encoding_obj.go`, `fontconverthelper.go`, `strhelper.go`); getters without behaviour.
* Exact rationals instead of float64 are used where the property is about geometry to within printing precision; each such
  theorem says so in its note ("exact arithmetic"). Theorems that say "any number type" hold for float64.
* Memory exhaustion, integer overflow of Go `int` in sizes, and panics inside user callbacks.

## 6. Seeded bugs

`seeded/run.py` applies each edit of `seeded/mutants*.py` (a definition of the model, changed the way a real bug would change the
program) to a scratch copy and rebuilds what depends on it with `make -k`; it records which `Cnn_` theorems are lost.
`seeded/mklog.py` writes `LOG.jsonl`: definition, edit, claim broken, theorems that failed, theorems tightened afterwards.
`seeded/tightened.json` holds the dispositions of edits that first survived (a theorem strengthened, a new one added, or a
remark why the edit is not visible in any output).
