C01|proved|All object bodies and trailers, any number of objects; files under 10^10 bytes (the xref entry width).
C02|proved|Any destination honouring the io.Writer contract.
C03|partial|The English property is false of the code: compilePdf never reports a Write error. Proved: the refutation, for every document and writer.
C04|proved|All histories before the first output, including SetPage, masks, callbacks and restarts.
C05|partial|False of the code: refuted for every document with at least one page (the second output doubles the page tree).
C06|partial|Histories without SetPage (with it: C07_histories), masked images (C36), fonts registered with the Underline bit (C42) and earlier output (C05).
C08|proved|Any sequence of buffer sizes.
C09|partial|Proved for all state except the page counter and header/footer callbacks, which survive Start; refuted for GetNumberOfPages.
C16|proved|All histories whose header/footer callbacks add no outline entries; includes repeated output.
C17|partial|False of the code: refuted for every document with an outline (Parent names the page tree, object 2).
C41|partial|Proved for the page and for rectangles relative to the default page height, for every finishing history (C41_links_of_every_page: SetPage, masks and callbacks included); refuted for pages with their own size.
C42|partial|Proved when fonts are registered without the Underline bit; a refutation shows the restriction is needed.
C43|partial|Proved for levels up to 9; refuted above 9 (level left unchanged instead of BestCompression).
C45|proved|Any state, any imported object map numbered from GetNextObjectID.
C46|partial|Errors and selection proved; "leaves the document unchanged" refuted.
C52|proved|Any number of pages; drawing callbacks on the page, cursor for arbitrary callbacks.
C10|proved|All byte strings, whatever follows the literal.
C11|partial|Proved for all texts of BMP characters (through Go's UTF-8 iteration); refuted for every character above U+FFFF.
C12|partial|Proved when no two drawn characters share a glyph; refuted for shared glyphs (first registered character wins) and for characters above U+FFFF.
C13|proved|End to end through the written encryption dictionary, MD5 and RC4 written out in full; permission words below 256 and object numbers below 2^24.
C14|proved|Permission word for every combination of the four permissions, opening with user and owner password of any length; a refutation shows that permission bits above the low byte break the file.
C15|partial|Proved for every object kind except transparency groups (refuted: never encrypted) and imported objects (refuted: C15_imported_refuted, written in the clear); for every history of SetProtection and object-adding calls the key each stream is encrypted with is determined (C54_which_key).
C33|proved|All nine kinds of stream object, any compressor output, with and without protection.
C54|partial|For every history: which stream is encrypted with the protection in force at writing, at adding, or never (C54_which_key); all under one key if protection is set before anything is added. The full claim is false of the code: refuted for the SetProtection method without Config.Protection (no encryption dictionary), and for a late SetProtection.
C21|partial|Nothing lost: every text, option, width and measure function. Width bound: without separator and for subadditive widths; with a separator that fits, in both modes and the separator included, when a text is not wider than one it ends (or, in strict mode, begins). Refuted for positive kerning.
C22|partial|Exact characterisation without separator (returns iff no character is wider than the line); refuted for wide characters and, with a separator, by a livelock and a panic.
C23|proved|Any width function and any float-like height arithmetic.
C24|proved|Any font, any substitution policy, any earlier texts. A refutation notes that characters the cmap explicitly maps to glyph 0 are not treated as missing.
C25|proved|Format 4 and format 12, for every font the parser accepts. C25_chars_of_segments: the exported character list (TTFParser.Chars) holds exactly the characters below U+FFFF that a segment maps to a glyph other than 0, with that glyph. C25_chars_agree_with_lookup: where segments do not overlap, the exported list and the lookup agree (on characters whose lookup does not panic).
C26|partial|Proved for fonts whose cmap ends with the 0xFFFF segment and whose range offsets stay inside; refuted otherwise (panic).
C27|partial|Proved for every accepted font with unitsPerEm > 0; refuted for unitsPerEm = 0 (division by zero). The /W array carries these widths.
C49|partial|Proved for a single format-0 subtable; refuted for several subtables and other formats.
C50|partial|Proved: every byte read is in the file, truncation is an error or harmless, no panic when numberOfHMetrics > 0; refuted for numberOfHMetrics = 0, and a font cut inside glyf is accepted and panics on output.
C28|partial|Proved for used glyphs and their direct components (complete when composites are not nested); refuted for nested composites.
C29|proved|Every accepted font; used glyphs and direct components byte for byte, all others empty, loca monotone and inside glyf; output succeeds for readable outlines.
C30|proved|Embedded fonts under 2^32 bytes. Rebuilt tables carry their checksum; copied tables carry the checksum stored in the source font.
C31|proved|All buffers, positions and values.
C19|partial|Round trip, factors, rectangles and boxes over exact arithmetic for every predefined unit; refuted: Config.ConversionForUnit is ignored by Rect/Box conversion, and the float64 round trip is not exact (but every float64 conversion and round trip is proved to be within one part in 2^51 of the exact one, for magnitudes from 2^-990 to 2^990).
C20|partial|SetNewY and friends break exactly when the limit is passed, in points; refuted for other units (the position is converted twice / compared with points).
C32|partial|Every drawing call that leaves a page's q/Q and BT/ET balanced: proved for every history whose Save/Restore and clip calls are paired and whose polygons are non-empty; also prefix property; refuted for an empty polygon or clip polygon.
C34|partial|RGB from uint8, CMYK components at most 100, gray not NaN: every colour operand written denotes a number in [0,1]; refuted for CMYK above 100 and for NaN gray.
C40|partial|Every orderly history (each piece shown with the font, size, colour, text state in force at its call; C40_in_force states the look from the calls alone); refuted in four ways: Text after Cell, nil-rectangle cell, Br(0), and gray followed by colour.
C38|proved|Exact arithmetic, no letter spacing, orderly histories: pen position of every character, total within half a thousandth of the size per gap (the step is an integer in the stream), end spaces untouched, no gap or no room leaves the text as is. C38_float64: the same in float64 for widths up to 2^20 points and sizes from a thousandth of a point: with m the value MeasureTextWidth returns, m plus the steps misses the width by at most size/2000 per gap plus 2^-28 point, and the steps vanish when m is no less than the width or there is no gap; the size in the stream is the one set to three decimals (exactly it when it has at most three).
C39|partial|Exact arithmetic, orderly histories: measured = drawn exactly without letter spacing; with spacing bounded by size/upem + size/1000 per character, and exact equality refuted. C39_float64: in float64, without letter spacing, the advance the viewer shows is u thousandths of an em of the size written and MeasureTextWidth returns u thousandths of the size set, to one part in 2^51; the size written is the size set to three decimals.
C55|proved|Orderly histories. Exact arithmetic (C55_alignment), and float64 (C55_float64): the printed position is within 0.005001 points of the aligned one for every cell whose numbers are finite and at most 2^20 points, size at most 4096.
C35|partial|All histories of settings and drawings over float64 alphas, with the ExtGState pointers modelled: carried values and sharing proved when the caller does not later write to a Transparency passed by pointer and combines alpha 1 with /Normal only; refutations show both restrictions are needed and that NaN passes validation.
C36|partial|All histories (callbacks, SetPage, repeated output included) in which every image source keeps its content and one use (plain, under a mask, as a mask): each drawing refers to its own data to the end, masks included, and a source is embedded once. Refutations: a source used in two ways gets the first way's object.
C07|partial|Errors: every state. Selection: every history (SetPage included) in which each page is drawn on directly after it is added, nothing is drawn before the first page, and there are no callbacks: SetPage succeeds and a drawing changes exactly the n-th page of the output; and for whole histories (C07_histories; no masked image, no link after SetPage) every page of the output shows exactly what was drawn while it was the selected page. Refutations: blank pages, drawing before the first page, links, page height.
C18|partial|Every forest over distinct outlines of a document, any depth and width: Next, First, Last everywhere, Parent and Prev below the top level, no Prev on the first. The top level's Prev is characterised exactly (creation order) and refuted, as is the outline dictionary's Last. C18_root_ends_partial, C18_root_flat: the outline dictionary's First and Last are the first and last item added, so they are right for an outline without nesting (for nested ones see C18_root_last_refuted).
C44|partial|Exact arithmetic: error exactly for inverted/empty coordinates or (when corners are rounded) a radius above a side, with nothing drawn; otherwise exactly one polygon, the angle loop terminating for every point count. Float64, any arguments, counts below 2^24: the same with float comparisons, the loop ends, the points per corner are as asked or one more. Refuted in float64: 12 points asked give 13; counts from 2^55 never return. Missing: counts from 2^24 to 2^55.
C56|partial|Exact arithmetic: all points inside for any cosine and sine between 0 and 1 on the first quadrant; the points are those of four quarter circles of the given radius at equal angles, corner after corner; without rounding the four corners in order (any arithmetic). Refuted: float64 gives 13 points for 12; corners cross for radii between half a side and the side.
C37|partial|From the file's bytes to the two image objects, for every size, filter type and pixel value, zlib any inverse pair: the pixels a PDF reader reconstructs (Predictor 15) are the PNG's. Needs chunks with data: an empty chunk ends the reading (refuted), short data panic (refuted), a palette of white-space bytes is rejected (refuted).
C57|partial|Every well-formed PNG whose chunks have data, cut anywhere before the type of its end chunk.
C48|partial|Every byte string not beginning with a mark, every map order: nothing lost, marks with their letter, right-to-left, and the required contextual form outside four neighbourhoods. Refutations: leading mark dropped; letters after jeh, dual letters before hamza and teh marbuta inside a word get a wrong form; "Allah" inside a longer word cuts the joining; digits and Latin are reversed.
C47|partial|proved with exact arithmetic for tables with at most maxRows rows: when DrawTable succeeds the page gets exactly the header, rows, empty filler cells and frames, each cell at the place its row and column give; the places tile the table; it succeeds iff no row is longer than the columns (text layer without errors). Refuted: more rows than maxRows leave the frame, long rows panic, short rows leave holes, padding makes negative boxes, the header font leaks into cells, text lines leave the cell, float64 frames drift. Errors of the text layer end the drawing and are returned, in any arithmetic C47_built_as_called: the columns and rows drawn are those of the AddColumn, AddRow and AddStyledRow calls, in order.
C51|partial|for every history: a filled placeholder writes exactly what Text would have written at reservation time, moved by the alignment offset, if the current font at filling is the reserving font, no underline and no substituted character; unknown names are errors; filling changes only placeholders; alignment proved with points as the unit. Refuted: second filling shifts again, other units convert the wrong way, another current font is used for measuring, substitutes disappear, underline has width 0
C53|proved|heap model with shared pointers: for every interleaving of operations of any number of documents and the container, a document's fonts, embedded characters and returned results equal those of the run without the other documents; a font from the container equals the font added directly. The parsed font data is treated as immutable (no code writes it after parsing)
C58|partial|for float64 (or any number type) and every history of calls with undecorated text: the marks a viewer paints, with their graphics state, are those asked for (fill colour unspecified after coloured text); exactly so without text colours and with the current transparency off for the four simple shapes; printed numbers are within half a unit of the last decimal. Refuted: text colour leaks into later fills, RectFromLowerLeft/UpperLeft, Oval and Curve ignore the current transparency. Underlines and cell borders: C65. Rounding of coordinates: C72
C59|partial|exact arithmetic and float64, every history of calls: each point of the image lands within 1/100 point of where asked (in float64 1/99, against exact arithmetic), turned about the middle of the visible box; the crop box likewise; transparency as asked. Refuted: crop lengths are taken as points, a second drawing without rectangle takes the size of the first, one-pixel images get size zero, Image/ImageFrom ignore the current transparency. Masks: the mask's group shows its image where asked; the masked image likewise, turned by both angles about the middle of its rectangle, unless it is both mirrored and turned; the mask lives in the coordinates in force. Refuted: turning the mask turns the picture, a mirrored and turned picture under a mask is thrown off the page, its crop is not turned, one image used as mask and picture is the mask's object. Missing: masked images in float64; Go's cosine and sine are assumed within 2^-28 of the exact ones
C60|partial|every kind of object gopdf writes, for all field values with finite numbers: the object reads as the dictionary, array or stream wanted, no entry twice. Refuted: a page written a second time has two content references outside an array, family and colour space names are written unescaped, links to unknown anchors are empty, masks from indexed images are not gray. The descriptor's numbers are the exact ratios rounded half away from zero although computed in float64. Missing: imported objects, infinite or NaN numbers
C61|partial|every history of calls that do not panic: each reference in the text of each object the reader can take apart has generation 0 and leads to an object of the kind its key asks for; with bookmarks and anchors set only while a page exists no destination is lost (shown necessary). Exceptions: the parent of a bookmark (C17), the palette of an indexed picture used as a mask. Missing: inside imported objects
C62|partial|proved for zones a whole number of hours from UTC; refuted for all other zones (minutes of the zone are dropped) and for years after 9999
C63|partial|every history of calls that do not panic: every font, image, graphics-state and colour-space name in every content object is defined exactly once in the resources object the pages name, leading to an object of that kind; texts and images name the graphics state asked for last (and keep it until written). The side condition on template names is shown necessary. Template names: C67_templates_resolve. Missing: the content of mask groups (which have no resources)
C64|partial|exact arithmetic, gopdf's own units, every history of calls ending with SetX or SetXY: both functions, from the split lines to the page as a reader shows it (which lines these are is C21-C23). Missing: Config.ConversionForUnit (C19 refutes its uniform use), float64 rounding, and pages other than the current one.
C65|partial|for float64 (or any number type) and every history in which no text directly continues another: the marks painted, with their graphics states, are exactly the shapes, borders and underlines asked for, where the underline runs along the whole box and is measured from the line C65_underline_baseline gives. C65_float64: those of a cell with a rectangle are, number by number, within a millionth of a point of exact arithmetic's (modest fonts, sizes up to 512, coefficients up to 256). Refuted: "under the text and as long as the text" for alignments other than top and left and for Text; a nil-rectangle cell after a Text loses its border.
C66|partial|Proved for programs over many documents, holders and files: every successful unmasked draw refers to the end to the bytes handed over; the same picture again adds nothing and reads nothing; a fresh holder of a decodable image draws. Refuted (kept as theorems): a holder drawn in a second document is an error (its buffer is drained), a rewritten file shows the old picture, a path spelt like a digest shows the other picture. Not covered: masks (see C36), images inside header/footer callbacks.
C67|partial|Proved for every program mixing imports with other calls: the pages shown, success exactly if every page has the box (no callbacks), and every template name leads to the imported form of that name in the written file. The reading library gofpdi is a parameter with a stated contract (dense object numbers from the one given, names lead to forms); that it meets it is not proved. Refuted (kept as theorems): an error leaves earlier pages in the document; imported pages get the document's size, and sizes in points are taken as units.
C68|proved|Every schedule of any number of writing goroutines, each buffer operation a step of its own, any choice of sync.Pool, collection and failing destinations: what is written is a beginning of what the document writes alone, and all of it at the end. Modelled: the four write methods that borrow a buffer, instruction by instruction; the other methods share nothing. Memory model: each buffer operation and pool operation is atomic (sync.Pool is; a held buffer is touched by its holder only, which is a theorem).
C69|partial|Proved for every program: the addresses of links are shown as given, and links, bookmarks, fonts and the encryption dictionary are the only objects that hold strings at all. Refuted (kept as theorems): bookmark titles and the registry and ordering of fonts are written in the clear, so a reader, decrypting them, shows something else (computed for a real key and title).
C70|partial|Proved: for every program that does not reuse a dash slice, crop or mask after handing it over, the page shows exactly what each call asked for; for every program, polygons and clip paths do so (their points are copied), and no memory but dash slices and masks handed over is changed. Refuted (kept as theorems): SetCustomLineType converts the caller's slice in place and keeps it, so a second use, or a later assignment, changes earlier lines too; a later assignment to CropOptions changes the drawing; a MaskOptions used twice is converted twice and lists its graphics state twice.
C71|partial|Proved for every program (one document, no SetPage), read from the written page objects: sizes as asked; a trim box given with a page size appears, as asked when it is as far from the top as from the bottom; drawings are measured from the top of their own page, links, anchors and bookmarks on pages of the default height. Refuted (kept as theorems): a trim box without a page size, and Config.TrimBox, are never written; a trim box is measured from the bottom; option sizes ignore Config.ConversionForUnit; links, anchors and bookmarks on pages of their own height are measured from the default height.
C72|partial|Proved for every history of shapes, clipping paths, graphics states, colours, images and templates (with undecorated text in between), every unit and every finite float64 argument up to 2^20 points, against the specification of C58 in exact rational arithmetic; Go's cosine and sine are assumed within 2^-28 of the exact ones, the page height a float64 that is used as it is. Where the text of cells is put and their underlines and borders are separate theorems in float64 (C55_float64, C65_float64). Missing: the three as one statement, and how the cursor's own rounding adds up along a line of Text calls.
C73|partial|Proved in exact arithmetic for every history of calls in which Br (and a cell without rectangle left floating below or nowhere) is followed by SetX or SetXY, a cell with a rectangle does not directly continue a text, and fonts are added without kerning. Refuted outside (kept as theorems): joined texts are kerned across the joint, a cell with a rectangle that continues a text, text after Br, text after a floating cell, a placeholder given in another unit than points. Missing: float64 rounding.
C74|proved|For every font file the parser accepts, every character, every history of texts and every substitution policy. Remark kept as a theorem: a glyph may exist in the character map without an outline.
C75|proved|For every history without fonts registered under the Underline bit (C42), every ASCII style and every finite size. Outside kept as theorems: the style "ı" counts as italic; 2^53+1 is rounded.
C76|partial|The reader (OpenSpec.v) works from the bytes alone: startxref, cross-reference table, trailer, catalog, page list, Standard-handler decryption with either password, decompression (any inflate inverse to the compressor), resource names. SetPage included under the conditions of C07 (C76_with_setpage). Missing: masked images, several outputs, objects imported from other files; the text of a drawing (ren) is arbitrary here and pinned down by C55-C58.
C77|partial|For every history without an intermediate output, callbacks and restarts included; the text of an internal link reads as a destination on that page (C77_link_text). Refuted (kept as a theorem): after SetPage, bookmarks and anchors still mark the last page added.
C78|partial|Every finishing history without an intermediate output (C78_bookmarks, C78_links), from the bytes of the file alone. Links to names never set have no readable object (C60) and are excluded by hypothesis; the height of a destination is left open. Refuted (kept as a theorem, computed on a real key): the titles of bookmarks in a protected file are written in the clear, so a reader shows something else; the pages and links are still right.
C79|partial|Every measurement in the descriptor, for every font the parser accepts with a non-zero em; the symbolic flag is refuted: Flags is 32 whatever the cmap says (C79_symbolic_refuted)
C80|partial|All characters the font has, in any plane (glyph numbers below 65536, what two-byte codes can say); exact arithmetic. Missing: fonts with several kerning subtables (C49 refutes those), the kern override callback, letter spacing and justification in the shown-width theorem (C39 and C38 have them). C80_shown_by_the_file_float64: the shown advance and the measured width from the bytes of the font file, in float64.
C81|partial|Every finishing plain history (no templates or imports; SetPage as in C07: C81_with_setpage), from the bytes of the file alone, protected or not. Missing: characters outside the basic plane and characters that share a glyph (C12 refutes both); that the drawing calls of a page carry the texts is a hypothesis on the page's caches, discharged by drawn_by_calls for every orderly sequence of calls (C40 refutes the others).
C82|partial|Every finishing plain history (SetPage as in C07: C82_with_setpage), from the bytes of the file alone: glyph number, width and outline of each character are those of its font file. Missing: composites of composites (C28 refutes them), glyph numbers above 65535; as in C81 the drawing calls are orderly ones (drawn_from_by_calls).
C83|partial|From the bytes of the written file to the pixels, every PNG kind C37 covers (chunks with data, at most one palette and colour key, eight bits with alpha), plain histories and those with SetPage under the conditions of C07; each soft mask and palette belongs to one picture (C83_owners). JPEG and GIF pictures: C84. Missing: masked drawing, PNG files C37 refutes.
C84|partial|From the bytes of the written file: JPEG files (described by their header, JpegSpec.v) byte for byte with size, components and colour space, GIF files as the PNG they are converted to; plain histories and those with SetPage under the conditions of C07. Go's image.DecodeConfig is a parameter with a stated contract (knows; conf84 shows it can be met). Refuted (kept as theorems): four-ink files without the Adobe segment come out inverted (C84_plain_inks_refuted); files storing RGB directly are refused (C84_refused). Missing: the GIF decoder and PNG encoder themselves, masked drawing.
C85|partial|Exact MediaBox: every configuration and history, from the text of the written objects (trim boxes with finite numbers). Paper sizes: within one point for all but A1, which is refuted (1685 points wide instead of 1683.78; also one more than the height of A2).
