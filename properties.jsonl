{"id": "C01", "title": "Cross-reference table locates every object", "statement": "In every document gopdf produces, the number after startxref is the byte position of the word xref, the table has one 20-byte in-use entry per object plus the free head entry, /Size is the number of entries, and the position recorded for object k is exactly where 'k 0 obj' starts; a reader that follows only startxref and the table finds every object with its whole body.", "quantifier": "all documents: any number of objects, any object bodies (including bodies containing 'endobj' or 'xref'), any metadata and protection, total size below 10^10 bytes", "why_tests_cant": "offsets depend on the accumulated length of all earlier objects; a test checks a handful of documents", "anchors": ["gopdf.go: compilePdf, xref, formatXrefline, addObj, countingWriter.Write"]}
{"id": "C02", "title": "Reported byte count equals bytes delivered", "statement": "WriteTo returns as its count exactly the number of bytes the destination accepted, and with a destination that accepts everything this is the length of the document.", "quantifier": "all documents and all writers, including writers that accept only part of a write and fail later", "why_tests_cant": "failure points and short writes are unbounded", "anchors": ["gopdf.go: WriteTo, compilePdf, countingWriter"]}
{"id": "C03", "title": "Write failures are reported", "statement": "If the destination writer fails, WriteTo and Write return an error (and never report success for a truncated file).", "quantifier": "all documents, all writers and every failure position", "why_tests_cant": "every byte position is a possible failure point", "anchors": ["gopdf.go: WriteTo, Write, compilePdf, xref"]}
{"id": "C04", "title": "Page tree lists every page once, in order", "statement": "The first time a document is output, the page tree's Kids lists exactly one reference per AddPage/AddPageWithOption call, in call order, each to an object that is a page, and Count equals that number and equals GetNumberOfPages.", "quantifier": "all sequences of API operations (pages, drawing, fonts, images, links, imports) before output", "why_tests_cant": "quantifies over all operation histories", "anchors": ["gopdf.go: AddPageWithOption, addObj, prepare, GetNumberOfPages", "pages_obj.go: PagesObj.write", "page_obj.go"]}
{"id": "C05", "title": "Producing the document is repeatable", "statement": "Asking for the bytes of an unchanged document a second time yields the same bytes (same page count, same objects).", "quantifier": "all documents, any number of repeated outputs", "why_tests_cant": "quantifies over all documents and repeat counts; single-output tests never see it", "anchors": ["gopdf.go: prepare, compilePdf, GetBytesPdf, WritePdf", "cache_content_imported_object.go: write"]}
{"id": "C06", "title": "Drawing lands on the page that is current", "statement": "Whatever is drawn after AddPage and before the next AddPage appears in the content of that page and of no other page, in drawing order; drawing on one page never changes another page's content.", "quantifier": "all operation histories, any number of pages and any interleaving of drawing with object-creating calls (fonts, images, links)", "why_tests_cant": "content streams are matched to pages by position in the object table, so every interleaving matters", "anchors": ["gopdf.go: getContent, AddPageWithOption, prepare"]}
{"id": "C07", "title": "SetPage selects the page asked for", "statement": "After SetPage(n) with 1 <= n <= GetNumberOfPages, drawing goes to the n-th page added; for n outside the range an error is returned and nothing changes.", "quantifier": "all operation histories, all n", "why_tests_cant": "depends on which pages already have content and on the history that made them", "anchors": ["gopdf.go: SetPage, getContent, AddPage"]}
{"id": "C08", "title": "Streaming reads deliver exactly the document", "statement": "Reading the document through io.Reader with any sequence of buffer sizes yields the document's bytes, in order, without loss or duplication, then end of file for ever; Close makes the next Read start over.", "quantifier": "all documents, all sequences of read buffer sizes", "why_tests_cant": "unbounded number of chunkings", "anchors": ["gopdf.go: Read, Close, GetBytesPdfReturnErr"]}
{"id": "C09", "title": "Start begins a fresh document", "statement": "After Start, nothing of an earlier document built with the same value remains observable: no pages, no objects besides the four initial ones, default margins, GetNumberOfPages = 0.", "quantifier": "all histories before Start", "why_tests_cant": "quantifies over all prior histories", "anchors": ["gopdf.go: Start, StartWithImporter, start, init"]}
{"id": "C10", "title": "String literals survive escaping", "statement": "A URL given to AddExternalLink, and the owner/user keys of a protected document, written between parentheses in the file, are read back by the PDF literal-string rules as exactly the original bytes, and the literal never ends early.", "quantifier": "all byte strings (any parentheses, backslashes, control bytes)", "why_tests_cant": "infinitely many strings; nesting and escape interaction", "anchors": ["annot_obj.go: writeExternalLink", "encryption_obj.go: escape"]}
{"id": "C11", "title": "Document metadata is encoded faithfully", "statement": "Author, title, subject, creator and producer strings set with SetInfo are stored as UTF-16BE text that decodes back to the same characters.", "quantifier": "all Unicode strings", "why_tests_cant": "all code points and all strings", "anchors": ["gopdf.go: SetInfo, writeInfo, encodeUtf8"]}
{"id": "C12", "title": "Text can be copied back out", "statement": "For every character drawn with a font, the font's ToUnicode map sends the glyph code written in the content stream back to that character.", "quantifier": "all texts, all fonts' character-to-glyph tables", "why_tests_cant": "depends on all pairs of characters sharing glyphs and on characters above U+FFFF", "anchors": ["unicode_map.go: pdfToUnicodeMap", "subset_font_obj.go: AddChars, CharCodeToGlyphIndex", "cache_content_text.go: write"]}
{"id": "C13", "title": "Encryption is invertible and length-preserving", "statement": "For a protected document every encrypted stream decrypts with the same object key to the original bytes and has the original length; different object numbers below 2^24 feed different key material.", "quantifier": "all data, all keys, all object numbers", "why_tests_cant": "all inputs", "anchors": ["pdf_protection.go: objectkey, rc4Cip", "content_obj.go: write", "image_obj.go"]}
{"id": "C14", "title": "Protection dictionary reflects passwords and permissions", "statement": "The permission word written is the one PDF defines for the chosen permissions (chosen bits set, unchosen permission bits clear, reserved bits as required), and passwords of any length are padded or truncated to exactly 32 bytes by the standard rule.", "quantifier": "all permission words, all password byte strings", "why_tests_cant": "all inputs, bit level", "anchors": ["pdf_protection.go: setProtection, createOValue, createUValue"]}
{"id": "C15", "title": "Everything in a protected document is encrypted", "statement": "When protection is on, every stream of the output is encrypted with its object's key.", "quantifier": "all documents with protection on and every kind of object that writes a stream", "why_tests_cant": "quantifies over all object kinds and histories", "anchors": ["transparency_xobject_group.go: write, protection", "content_obj.go", "image_obj.go", "pdf_dictionary_obj.go", "unicode_map.go", "smask_obj.go"]}
{"id": "C16", "title": "Outline entries form one list in call order", "statement": "After n AddOutline calls the outline dictionary has Count n, First and Last are the first and last entries added, and following Next (Prev) from First (Last) visits every entry once in (reverse) call order.", "quantifier": "all numbers of outline calls interleaved with any other object-creating calls", "why_tests_cant": "inductive property over all histories", "anchors": ["outlines_obj.go: AddOutline, AddOutlineWithPosition, write"]}
{"id": "C17", "title": "Outline entries name the outline dictionary as parent", "statement": "Each outline item's Parent entry refers to the object that is the outline dictionary.", "quantifier": "all documents with outlines", "why_tests_cant": "position of the outline object vs. object number; structural for every history", "anchors": ["outlines_obj.go: AddOutline, write", "gopdf.go: start"]}
{"id": "C18", "title": "Nested outlines link consistently", "statement": "After OutlineNodes.Parse on a tree, siblings at every level are linked by Next and Prev in list order, and every node's First/Last/Parent are its first child, last child and parent.", "quantifier": "all outline forests of any depth and width", "why_tests_cant": "all trees", "anchors": ["outlines_obj.go: OutlineNodes.Parse, OutlineNode.Parse"]}
{"id": "C19", "title": "Unit conversion is lossless and uniform", "statement": "Converting from document units to points and back is the identity for every unit and custom conversion factor, and every API that takes lengths (scalars, Rect, Box) uses the same conversion.", "quantifier": "all units, all non-zero custom factors, all lengths", "why_tests_cant": "all values", "anchors": ["config.go: unitsToPoints, pointsToUnits", "rect.go", "box.go", "gopdf.go: UnitsToPoints"]}
{"id": "C20", "title": "Automatic page break keeps content inside the margins", "statement": "After SetNewY(y,h)/SetNewXY/SetNewYIfNoOffset a block of height h starting at the current position ends above the bottom margin of the page, starting a new page at the top margin exactly when it would not fit.", "quantifier": "all positions, heights, margins, units and page sizes", "why_tests_cant": "all numeric configurations and units", "anchors": ["gopdf.go: SetNewY, SetNewYIfNoOffset, SetNewXY", "margin.go"]}
{"id": "C21", "title": "Text splitting loses nothing and respects the width", "statement": "SplitText/SplitTextWithOption return lines whose concatenation is the text without its newlines (plus inserted separators when configured), each line no wider than the given width.", "quantifier": "all texts, all fonts (any width function), all widths and break options", "why_tests_cant": "all texts and width functions", "anchors": ["gopdf.go: SplitText, SplitTextWithOption, performStrictLineBreak, performIndicatorSensitiveLineBreak, breakIndicatorIndex"]}
{"id": "C22", "title": "Text splitting terminates", "statement": "SplitText, SplitTextWordWrap and SplitTextWithOption return for every text and width.", "quantifier": "all texts, widths and break options", "why_tests_cant": "non-termination is not observable by a finite test", "anchors": ["gopdf.go: SplitTextWithOption"]}
{"id": "C23", "title": "MultiCell agrees with IsFitMultiCell and draws all text", "statement": "When IsFitMultiCell says text fits, MultiCell draws every character of it within the rectangle's height; the height IsFitMultiCell reports is the height MultiCell consumes.", "quantifier": "all texts, width functions and rectangles", "why_tests_cant": "all texts", "anchors": ["gopdf.go: MultiCell, IsFitMultiCell, IsFitMultiCellWithNewline"]}
{"id": "C24", "title": "Every drawn character has a glyph", "statement": "AddChars succeeds only with a string of the same number of characters in which every character has a glyph registered in the subset; characters the font has are unchanged; missing ones are replaced by the substitution policy; characters registered earlier stay registered with the same glyph.", "quantifier": "all strings, fonts, substitution functions and call histories", "why_tests_cant": "all histories", "anchors": ["subset_font_obj.go: AddChars, replaceGlyphThatNotFound", "map_of_character_To_glyph_index.go"]}
{"id": "C25", "title": "Character lookup follows the cmap table", "statement": "The glyph chosen for a character is the one the font's cmap (format 4 or 12) assigns to it, or 'not found' when none of its segments covers it.", "quantifier": "all characters and all well-formed cmap tables", "why_tests_cant": "65536+ characters times all tables", "anchors": ["subset_font_obj.go: charCodeToGlyphIndexFormat4, charCodeToGlyphIndexFormat12"]}
{"id": "C26", "title": "Character lookup never crashes", "statement": "Looking up any character in any font that AddTTFFont accepted returns a glyph or an error.", "quantifier": "all characters, all accepted fonts", "why_tests_cant": "all malformed fonts", "anchors": ["subset_font_obj.go: charCodeToGlyphIndexFormat4", "fontmaker/core/ttfparser.go: ParseCmap"]}
{"id": "C27", "title": "Glyph widths come from hmtx", "statement": "The width used for a glyph is its hmtx advance (the last advance for glyphs beyond numberOfHMetrics) scaled to 1000 units per em.", "quantifier": "all glyph indices, metrics and unitsPerEm", "why_tests_cant": "all tables", "anchors": ["subset_font_obj.go: GlyphIndexToPdfWidth", "cid_font_obj.go"]}
{"id": "C28", "title": "Embedded font subset is closed under components", "statement": "Every glyph reachable through composite components from a used glyph is included in the embedded font.", "quantifier": "all glyph graphs and used sets", "why_tests_cant": "any nesting depth", "anchors": ["pdf_dictionary_obj.go: completeGlyphClosure, AddCompositeGlyphs"]}
{"id": "C29", "title": "Embedded glyph data is intact", "statement": "In the embedded font, loca is monotone and within glyf, the data of every used glyph is the original data, and every unused glyph is empty.", "quantifier": "all fonts and used-glyph sets", "why_tests_cant": "all tables", "anchors": ["pdf_dictionary_obj.go: makeGlyfAndLocaTable, distinctInts"]}
{"id": "C30", "title": "Embedded font directory is consistent", "statement": "Each table of the embedded font is 4-byte aligned, directory offsets and lengths address exactly that table's bytes, tables do not overlap, the checksum is the big-endian word sum.", "quantifier": "all table sets and sizes", "why_tests_cant": "all sizes modulo 4, all contents", "anchors": ["pdf_dictionary_obj.go: makeFont, PaddedLength, CheckSum", "buff.go", "buff_write.go"]}
{"id": "C31", "title": "Binary buffer writes are exact", "statement": "A value written big-endian at a position is read back from there, other positions are unchanged, and sequential writes concatenate.", "quantifier": "all values, positions and write sequences", "why_tests_cant": "all sequences", "anchors": ["buff.go: Write, SetPosition", "buff_write.go", "strhelper.go: ReadShortFromByte, ReadUShortFromByte"]}
{"id": "C32", "title": "Graphics state is balanced", "statement": "The content produced by any sequence of drawing calls that pair SaveGraphicsState/RestoreGraphicsState and Rotate/RotateReset properly has balanced q/Q and BT/ET, never pops below its start, and text objects never nest.", "quantifier": "all sequences of drawing operations", "why_tests_cant": "all sequences", "anchors": ["cache_content_*.go: write", "content_obj.go"]}
{"id": "C33", "title": "Stream length entry is the stream length", "statement": "For every stream object the Length entry equals the number of bytes between 'stream' and 'endstream', compressed or not, encrypted or not.", "quantifier": "all contents, compression settings and keys", "why_tests_cant": "all contents", "anchors": ["content_obj.go: write", "image_obj.go: write", "smask_obj.go", "unicode_map.go"]}
{"id": "C34", "title": "Colours are in range", "statement": "Every colour component written to a content stream is between 0 and 1.", "quantifier": "all colour arguments", "why_tests_cant": "all values", "anchors": ["cache_content_color_rgb.go", "cache_content_color_cmyk.go", "content_obj.go: fixRange10", "gopdf.go: SetFillColor, SetFillColorCMYK, SetGrayFill"]}
{"id": "C35", "title": "Transparency is validated and shared correctly", "statement": "NewTransparency accepts exactly alpha in [0,1] and known blend modes; two drawing calls share a graphics-state object only if alpha (to three decimals) and blend mode agree, and the referenced object carries those values.", "quantifier": "all histories of transparency settings", "why_tests_cant": "all histories", "anchors": ["transparency.go", "gopdf.go: saveTransparency, getCachedTransparency", "ext_g_state_obj.go: GetCachedExtGState"]}
{"id": "C36", "title": "Images are embedded once and referenced correctly", "statement": "Every drawing of an image refers to an XObject holding that image's data, and drawing the same image source again adds no new image object.", "quantifier": "all histories of image calls, with and without masks", "why_tests_cant": "all histories", "anchors": ["gopdf.go: imageByHolder, maskHolder", "current.go", "procset_obj.go"]}
{"id": "C37", "title": "PNG alpha separation is lossless", "statement": "For gray+alpha and RGB+alpha PNG images, the colour and alpha planes written recombine to the original scanlines.", "quantifier": "all pixel data, widths and heights", "why_tests_cant": "all images", "anchors": ["image_obj_parse.go: parsePng"]}
{"id": "C38", "title": "Text justification fills the width exactly", "statement": "For justified text the extra spacing times the number of stretchable spaces plus the natural width equals the cell width, spaces at the ends are not stretched, and text without interior spaces is untouched.", "quantifier": "all texts and widths", "why_tests_cant": "all texts", "anchors": ["cache_content_text.go: justifyAdjustment, interiorSpaceCount, nonSpaceBounds"]}
{"id": "C39", "title": "Measured width equals drawn advance", "statement": "MeasureTextWidth equals the advance the PDF viewer computes from the widths and kerning adjustments actually written for the text.", "quantifier": "all texts, fonts and kerning tables", "why_tests_cant": "all texts", "anchors": ["cache_content_text.go: createContent, write", "gopdf.go: MeasureTextWidth"]}
{"id": "C40", "title": "Consecutive text keeps its attributes", "statement": "Every piece of text drawn is shown with the font, size, colour, spacing and position in force when it was drawn, also when consecutive pieces are merged into one text object.", "quantifier": "all sequences of text operations", "why_tests_cant": "all sequences", "anchors": ["list_cache_content.go: appendContentText", "cache_content_text.go: isSame"]}
{"id": "C41", "title": "Links are placed on their page", "statement": "AddExternalLink/AddInternalLink create exactly one annotation, on the page current at the call, whose rectangle is the requested one in that page's coordinates; an internal link goes to the anchor of that name.", "quantifier": "all histories with pages of any sizes", "why_tests_cant": "all histories", "anchors": ["gopdf.go: AddExternalLink, AddInternalLink, addLink, SetAnchor", "annot_obj.go", "page_obj.go"]}
{"id": "C42", "title": "Font selection is exact and atomic", "statement": "SetFont succeeds iff a font with that family and (underline-stripped) style was added, selects the first such font and size; on failure the current font is unchanged.", "quantifier": "all histories of font additions", "why_tests_cant": "all histories", "anchors": ["gopdf.go: SetFontWithStyle, setSubsetFontObject, AddTTFFontWithOption", "font_option.go", "style.go"]}
{"id": "C43", "title": "Compression level setting is honoured", "statement": "SetCompressLevel(l) uses l when -2<=l<=9, the default below and best compression above that range.", "quantifier": "all integers and prior states", "why_tests_cant": "all integers", "anchors": ["gopdf.go: SetCompressLevel"]}
{"id": "C44", "title": "Rectangle arguments are validated", "statement": "Rectangle returns an error and draws nothing exactly for inverted/empty coordinates or a radius exceeding the sides, otherwise it draws.", "quantifier": "all coordinates and radii", "why_tests_cant": "all values", "anchors": ["gopdf.go: Rectangle"]}
{"id": "C45", "title": "Imported objects keep their numbers", "statement": "ImportObjects with the ids starting at GetNextObjectID places the object with id k as object k of the output.", "quantifier": "all id maps and document states", "why_tests_cant": "all maps", "anchors": ["gopdf.go: ImportObjects, GetNextObjectID"]}
{"id": "C46", "title": "Colour spaces are unique by name", "statement": "AddColorSpaceRGB/CMYK with a name already in use returns an error and leaves the document unchanged; SetColorSpace selects the space of that name or reports an error.", "quantifier": "all histories", "why_tests_cant": "all histories", "anchors": ["gopdf.go: addColorSpace, SetColorSpace"]}
{"id": "C47", "title": "Table layout matches the rows", "statement": "DrawTable draws every cell of every row inside its column and row, rows stacked without gaps or overlap, and the outer border encloses exactly the rows drawn.", "quantifier": "all tables (columns, widths, rows)", "why_tests_cant": "all sizes", "anchors": ["table.go: DrawTable, drawRow"]}
{"id": "C48", "title": "Arabic shaping preserves text", "statement": "ToArabic shows the letters of a text from right to left, each once and with exactly its own marks, in the contextual form required by its neighbours, whatever order the program visits its letter table in; digits and Latin words keep their reading order.", "quantifier": "all strings", "why_tests_cant": "all strings", "anchors": ["arabic_helper.go: ToArabic, getCharShape, reverseWithTashkeel", "arabic_alphabet.go"]}
{"id": "C49", "title": "Kerning table is read completely", "statement": "The kerning applied to a glyph pair is the sum/value given by the font's kern subtables for that pair.", "quantifier": "all kern tables", "why_tests_cant": "all tables", "anchors": ["fontmaker/core/kern_table.go", "fontmaker/core/ttfparser.go: Parsekern", "cache_content_text.go: kern"]}
{"id": "C50", "title": "Font file reading is bounds-safe", "statement": "Reading a truncated font file yields an error, never data that is not in the file; multi-byte values are decoded big-endian.", "quantifier": "all files, all truncation points", "why_tests_cant": "all truncation points", "anchors": ["fontmaker/core/ttfparser.go: Read, ReadULong, ReadUShort, ReadShort"]}
{"id": "C51", "title": "Placeholders are filled once in place", "statement": "FillInPlaceHoldText draws the text at the position, size and font reserved by PlaceHolderText, aligned inside the reserved width, and reports an error for an unknown name.", "quantifier": "all histories", "why_tests_cant": "all histories", "anchors": ["gopdf.go: PlaceHolderText, FillInPlaceHoldText"]}
{"id": "C52", "title": "Header and footer run once per page", "statement": "Each AddPage runs the header and footer callbacks registered at that time exactly once, with the new page current, and restores the cursor to the margins afterwards.", "quantifier": "all histories and all callbacks", "why_tests_cant": "all histories", "anchors": ["gopdf.go: AddHeader, AddFooter, AddPageWithOption"]}
{"id": "C53", "title": "Font containers isolate documents", "statement": "Fonts shared through a FontContainer can be used in several documents, and drawing in one never changes the characters embedded in another.", "quantifier": "all interleavings of several documents' operations", "why_tests_cant": "all interleavings", "anchors": ["font_container.go", "gopdf.go: AddTTFFontFromFontContainer"]}
{"id": "C54", "title": "SetProtection yields a readable protected document", "statement": "A document on which SetProtection was called opens with its password: the file names an encryption dictionary and every encrypted stream decrypts with its key.", "quantifier": "all orders of SetProtection, Start and object-adding calls", "why_tests_cant": "Depends on the order of calls and on which objects captured the protection when they were created.", "anchors": ["gopdf.go:SetProtection", "gopdf.go:prepare", "gopdf.go:xref", "gopdf.go:setSubsetFontObject", "image_obj.go:setProtection"]}
{"id": "C55", "title": "Cell text is placed as the alignment says", "statement": "CellWithOption with a rectangle places its text box (measured width by ascender/descender) flush with the left, right, top or bottom edge of the cell, or with equal gaps on both sides for Center and Middle, whatever was drawn before.", "quantifier": "all histories, texts, fonts, rectangles and alignments", "why_tests_cant": "all texts and rectangles, and text objects may be merged with earlier ones", "anchors": ["gopdf.go: CellWithOption", "cache_content_text.go: calX, calY, createContent", "cell_option.go"]}
{"id": "C56", "title": "A rounded rectangle stays inside its corners", "statement": "When Rectangle succeeds it draws one polygon, all of whose points lie inside the rectangle (x0,y0)-(x1,y1); with rounding, each corner gets radiusPointNum intermediate points and corners do not overlap.", "quantifier": "all coordinates, radii and point counts", "why_tests_cant": "all real coordinates and all loop lengths", "anchors": ["gopdf.go: Rectangle, Polygon"]}
{"id": "C57", "title": "A truncated PNG file is rejected", "statement": "Using an image whose PNG file was cut off before its end chunk reports an error; no picture with missing data is embedded silently.", "quantifier": "all PNG files and all cut positions", "why_tests_cant": "every cut position of every file", "anchors": ["image_obj_parse.go: parsePng, readBytes, readUInt"]}
{"id": "C58", "title": "Shapes appear as asked, in the state asked for", "statement": "A viewer of a page paints, in the order of the calls, exactly the lines, rectangles, ovals, curves, polygons, images and templates drawn: each with the coordinates given (converted from the document's unit and measured from the top of the page), painted as the style says, under the line width, dash pattern, colours, clipping, rotation and transparency that were set when it was drawn.", "quantifier": "all histories of drawing calls on a page, all arguments", "why_tests_cant": "graphics state interacts over arbitrarily long histories of nested calls", "anchors": ["gopdf.go: Line, RectFromLowerLeft, RectFromUpperLeftWithOpts, Oval, Curve, Polygon, ClipPolygon, Rotate, SaveGraphicsState, SetTransparency", "cache_content_*.go: write"]}
{"id": "C59", "title": "Images appear where, and as large, as asked", "statement": "An image drawn at (X, Y) with a rectangle appears with its upper left corner at X, Y and with the rectangle's size, in the document's unit; turned by the angle about the middle of what is visible, mirrored if asked, and with a crop only the crop box shows. Without a rectangle it has its own size.", "quantifier": "all positions, sizes, crops, angles, flips and histories of calls before and after", "why_tests_cant": "real-valued arguments and arbitrary histories", "anchors": ["gopdf.go: ImageByHolderWithOptions, ImageByHolder, Image, ImageFrom, imageByHolder", "cache_content_image.go: write", "image_obj.go: getRect"]}
{"id": "C60", "title": "Every object says what it should, in PDF syntax", "statement": "Every object of the written file, read with the syntax rules of PDF, is the dictionary, array or stream the document calls for: catalog, page tree, page with its size and boxes, resources, fonts with their descriptors and widths, images with size, colour space, filter parameters and masks, graphics states, outlines, links, colour spaces, the encryption dictionary and the trailer; entry by entry, with the numbers and names given through the API and the references of the objects meant.", "quantifier": "all values of all fields: numbers, names, texts, lists of any length", "why_tests_cant": "The text of an object depends on unbounded lists and on every byte of user-supplied names and texts; tests look at a few files.", "anchors": ["catalog_obj.go", "pages_obj.go", "page_obj.go", "procset_obj.go", "subset_font_obj.go: write", "cid_font_obj.go", "subfont_descriptor_obj.go", "ext_g_state_obj.go", "smask_obj.go", "outlines_obj.go", "annot_obj.go", "color_space_obj.go", "image_obj.go", "image_obj_parse.go: writeImgProps, writeMaskImgProps, writeBaseImgProps", "transparency_xobject_group.go", "gopdf.go: xref, writeInfo"]}
{"id": "C61", "title": "Every reference in the file leads to the right kind of object", "statement": "In the file written after any history of calls, every indirect reference in any object names an object that is in the file and is of the kind its place asks for: Kids are pages, Contents are content streams, a font's descendants, descriptor, file and character map are that, a picture's SMask and palette, a graphics state's mask and group, bookmarks' siblings and destinations, a link's page; object 1 is the catalog and the trailer's Encrypt entry names the encryption dictionary.", "quantifier": "all histories of API calls that do not panic, all documents, all objects and references in them", "why_tests_cant": "Numbers are kept in many places and patched while objects are appended; one history that leaves a stale or zero number breaks the file.", "anchors": ["gopdf.go: prepare, addObj, AddPage, imageByHolder, maskHolder, AddTTFFontData, AddOutline, SetAnchor", "page_obj.go", "pages_obj.go", "procset_obj.go", "image_obj.go", "outlines_obj.go", "annot_obj.go", "ext_g_state_obj.go"]}
{"id": "C62", "title": "The creation date names the instant that was set", "statement": "The CreationDate of the file, read as a PDF date, is the instant given to SetInfo, whatever the time zone of the time.", "quantifier": "all times of the years 0 to 9999 in all zones", "why_tests_cant": "all times and zones", "anchors": ["gopdf.go: infodate, writeInfo"]}
{"id": "C63", "title": "Every name in a page's content is defined, once, and means what was asked", "statement": "In the file written after any history of calls, every font, image, graphics-state and colour-space name a content stream uses stands exactly once in the resources of the pages and leads to an object of that kind (unless an imported template was given the very same name); and a text or image is drawn under a graphics state carrying the alpha (to three decimals) and blend mode last asked for, or none if none was.", "quantifier": "all histories of API calls that do not panic, header and footer functions included; all contents and names in them", "why_tests_cant": "Names are counted in several places (fonts, colour spaces, indices of objects) and cached; one history where a counter and a list part breaks the page.", "anchors": ["gopdf.go: AddTTFFontData, SetFont, imageByHolder, maskHolder, SetTransparency, ClearTransparency, saveTransparency, addColorSpace", "procset_obj.go", "ext_g_state_obj.go", "cache_content_text.go", "cache_content_image.go"]}
{"id": "C64", "title": "A paragraph is drawn line by line, every line where it belongs", "statement": "MultiCell and MultiCellWithOption draw exactly the lines the text was split into, in order, each starting at the x the cursor had, one line height below the one before, in the font, size and colour in force and with the alignment asked for, except that the last line of a justified paragraph is set flush left; each line is placed in its box as its alignment says, nothing else on the page is disturbed, and the cursor ends at the same x, one line height below the last line.", "quantifier": "all texts, rectangles, break options, cell options, fonts and units, after every history of drawing calls that ends by setting the cursor", "why_tests_cant": "The placement depends on the splitting of an arbitrary text, on unit conversions there and back for every line and on what was drawn before (a cell may be merged into a preceding text).", "anchors": ["gopdf.go: MultiCell, MultiCellWithOption, CellWithOption, Br, SetX", "cache_content_text.go: lineAlign", "list_cache_content.go: appendContentText"]}
{"id": "C65", "title": "Borders and underlines are drawn where, and as, asked", "statement": "CellWithOption with a border paints exactly the sides asked for, along the edges of the cell's box at the cursor, in the stroke colour, line width and dash pattern in force and with the text's transparency, and a font set with the underline style paints one filled bar under each text, in the text's colour, below its baseline and as long as the text; after it the shapes drawn before and later are unchanged.", "quantifier": "every history of drawing calls on a page, every cell rectangle, border combination, alignment, font and size", "why_tests_cant": "the decorations depend on the whole history (colour and transparency in force, merging with the text before), on all font metrics and on all alignments", "anchors": ["cache_content_text.go:drawBorder", "cache_content_text.go:underline", "cache_content_text.go:write", "list_cache_content.go:appendContentText", "gopdf.go:CellWithOption", "gopdf.go:Text"]}
{"id": "C66", "title": "A picture drawn shows the bytes handed over", "statement": "Every successful call drawing an image from bytes, a reader, an image value or a file adds a drawing that, to the end, refers to an image object holding exactly those bytes, and drawing the same picture again in that document adds no image object and reads nothing; provided MD5 does not collide, files are not rewritten and no path is spelt like a digest. A holder serves one document: in a second one it is empty.", "quantifier": "all programs over any number of documents, holders (used any number of times, in any order) and files, and all other calls in between", "why_tests_cant": "all interleavings of holders, files and documents", "anchors": ["image_holder.go: newImageBuff, newImageBuffByPath, newImageBuffByReader", "gopdf.go: imageByHolder, Image, ImageFromWithOption", "image_obj.go: SetImage"]}
{"id": "C67", "title": "Importing the pages of another PDF", "statement": "Importing a whole source adds one page per page of the source, in order, each showing that page's template at the full page and nothing else (header and footer apart), after the pages there were; it fails exactly if some page lacks the box asked for; importing a single page changes no page. Every template name in the resources leads, in the file, to the imported form of that name, whatever is added before or after. On an error the pages before the offending one stay; an imported page gets the document's page size, not its own, and its size in points is taken as units.", "quantifier": "all programs mixing imports of pages and sources with any other calls, all sources, all answers of the reading library that meet its contract", "why_tests_cant": "all sources and all histories before and after an import", "anchors": ["gopdf.go: ImportPage, ImportPageStream, ImportPagesFromSource, UseImportedTemplate, ImportObjects, ImportTemplates, GetNextObjectID", "procset_obj.go: ProcSetObj", "imported_obj.go: ImportedObj"]}
{"id": "C68", "title": "Documents can be written at the same time", "statement": "When several documents are written in different goroutines at once, each destination receives exactly the bytes it would receive if its document were written alone, whatever buffers the shared pool hands out and whatever happens to the other documents (a failing destination included); no buffer is ever in two hands, and none waits for another.", "quantifier": "any number of documents and stream objects, all schedules, all choices of the shared buffer pool and the garbage collector, all failures of other destinations", "why_tests_cant": "all interleavings at the granularity of single buffer operations", "anchors": ["buffer_pool.go: GetBuffer, PutBuffer", "content_obj.go: ContentObj.write", "pdf_dictionary_obj.go: PdfDictionaryObj.write", "transparency_xobject_group.go: TransparencyXObjectGroup.write", "unicode_map.go: UnicodeMap.write"]}
{"id": "C69", "title": "The strings of a protected document", "statement": "In a document written with protection, a reader that opens it and decrypts the strings of every object, as the file format tells it to, is shown the strings the program gave: the address of each link, the title of each bookmark, the character collection of each font.", "quantifier": "all programs, all passwords and permissions, all objects of the written file", "why_tests_cant": "all strings and all object numbers; a test would have to run a decrypting reader on every object kind", "anchors": ["annot_obj.go: annotObj.write, writeExternalLink", "outlines_obj.go: OutlineObj.write", "cid_font_obj.go: CIDFontObj.write", "pdf_protection.go: PDFProtection.objectkey", "encryption_obj.go: EncryptionObj.write"]}
{"id": "C70", "title": "A drawing is fixed by its arguments at the call", "statement": "What a call puts on the page is determined by the values of its arguments at the moment of the call, each length converted to points once: whatever the program does afterwards with the slices and option structs it handed over (assign to them, hand them over again), and the call leaves the program's own memory as it was.", "quantifier": "all programs that assign to their variables and call drawing functions in any order with any sharing between the arguments, all units", "why_tests_cant": "all histories of sharing between calls and later assignments", "anchors": ["gopdf.go: SetCustomLineType, Polygon, ClipPolygon, ImageByHolderWithOptions, UnitsToPointsVar", "content_obj.go: AppendStreamSetCustomLineType, AppendStreamPolygon", "cache_content_custom_line_type.go: write", "cache_content_image.go: write"]}
{"id": "C71", "title": "Every page has the size and trim box asked for", "statement": "A reader of the file sees each page with the size given when it was added (in its own unit, else the document's), or the document's default; with the trim box given with it, or the document's default trim box, measured from the top left like everything else; and every drawing, link, anchor and bookmark position on a page is measured from the top of that page.", "quantifier": "all programs adding pages with and without options, all units and conversion factors, all drawings, links, anchors and bookmarks on them", "why_tests_cant": "all combinations of page options, units and histories; the result depends on which page is current", "anchors": ["gopdf.go: AddPage, AddPageWithOption, Start, AddOutlineWithPosition, SetAnchor, AddExternalLink, AddInternalLink", "page_option.go: PageOption", "page_obj.go: PageObj.write", "pages_obj.go: PagesObj.write", "content_obj.go: AppendStreamLine"]}
{"id": "C72", "title": "Rounding in float64 does not move what is drawn", "statement": "What a program's drawing calls put on the page is what the same calls ask for in exact arithmetic: the same marks in the same order, painted the same way and in the same graphics state, with every coordinate, length, matrix entry and colour component printed from a number at most a millionth off the exact one (so, after printing with two decimals, at most half a hundredth of a point and a millionth off).", "quantifier": "all histories of drawing calls with finite float64 arguments whose lengths are at most 2^20 points, all units and conversion factors", "why_tests_cant": "all float64 arguments and all accumulations of rounding errors in histories of any length", "anchors": ["config.go: unitsToPoints", "gopdf.go: Line, Rectangle, Oval, Curve, Polygon, ClipPolygon, Rotate, SetLineWidth, SetCustomLineType", "cache_content_oval.go: write", "cache_content_image.go: write", "cache_content_rotate.go: write", "content_obj.go: fixRange10"]}
{"id": "C73", "title": "The position (GetX, GetY) moves by what was drawn", "statement": "After SetX, SetY and SetXY the position is the one set; Text and a Cell without a rectangle move it right by the width MeasureTextWidth answers for the text, a cell with a rectangle by the rectangle's width (and, with Float Bottom, down by its height; a cell without rectangle by the cell height MeasureCellHeightByText answers), Br puts it at the left margin and lowers it by what was given, a placeholder by its width, and no other drawing call moves it.", "quantifier": "every history of calls on a page, every text, font without kerning, size, character spacing, rectangle, unit and float option", "why_tests_cant": "the position depends on the whole history, as consecutive texts are joined into one and measured together, and on all texts and font metrics", "anchors": ["gopdf.go: GetX, GetY, SetX, SetY, SetXY, Br, Text, Cell, CellWithOption, MeasureTextWidth, MeasureCellHeightByText, FillInPlaceHoldText", "cache_content_text.go: createContent, write", "list_cache_content.go: appendContentText", "content_obj.go: AppendStreamText, AppendStreamSubsetFont, AppendStreamPlaceHolder"]}
{"id": "C74", "title": "IsCurrFontContainGlyph tells what drawing will do", "statement": "IsCurrFontContainGlyph(r) answers true exactly if drawing r with the current font shows r with a glyph of its own (not replaced, not the font's missing-character glyph); the answer is what the font file's character map assigns to r.", "quantifier": "every font file accepted, every character, every text drawn before, every substitution policy", "why_tests_cant": "all font files, all characters and all histories of texts", "anchors": ["gopdf.go: IsCurrFontContainGlyph", "subset_font_obj.go: CharCodeToGlyphIndex, AddChars", "fontmaker/core/ttfparser.go: ParseCmap"]}
{"id": "C75", "title": "SetFont takes any number for size and any style letters", "statement": "SetFont(family, style, size) succeeds exactly if size is of a built-in integer or float type and a font of the family was added as bold and italic as the letters B and I (in either case, anywhere) in style say; then texts are shown in that font, underlined exactly if style has a U, with the size given (exactly, for floats and for integers up to 2^53, otherwise the nearest float64); a call that fails changes nothing.", "quantifier": "every document history, family, style string, size value of any type", "why_tests_cant": "all style strings, all values of all numeric types, all histories of added fonts", "anchors": ["gopdf.go: SetFont, SetFontWithStyle, convertNumericToFloat64", "font_option.go: getConvertedStyle"]}
{"id": "C76", "title": "Opening the written file from its bytes shows the pages drawn", "statement": "Take the bytes of a written document, protected or not, compressed or not, and nothing else (for a protected document, also the user or the owner password). A reader that starts at startxref, follows the cross-reference table and trailer to the catalog and page list, decrypts with the standard handler's key and decompresses, finds as many pages as were added, each with the size set for it and, as content, exactly what was drawn on it, in order; the names in that content lead, again through the bytes, to the font, the image data and the colour space each drawing used.", "quantifier": "every document history without SetPage, masked images or an intermediate output; every protection, password, permission and compression setting; every text of the objects not concerned", "why_tests_cant": "all histories, all contents and passwords; the property joins object numbers, offsets, dictionary texts, encryption and resource names, each of which depends on the whole history", "anchors": ["gopdf.go: AddPage, compilePdf, xref, WriteTo", "pdf_protection.go: setProtection, objectkey", "content_obj.go: write", "page_obj.go: write", "pages_obj.go: write", "procset_obj.go: write", "image_obj.go: write", "subset_font_obj.go: write"]}
{"id": "C77", "title": "Bookmarks and links to anchors lead to the page they were set on", "statement": "In the written document, following the bookmarks from the first one through their next-links gives exactly the bookmarks the calls set, in their order (those set by header and footer callbacks included, in the place of the AddPage call that ran them), and each leads to the page object that the page list holds at the place of the page it was set on; a bookmark set before the first page leads to no object. A link to an anchor leads to the page the anchor's name was last set on, and one to a name that was never set has no destination. Setting a bookmark or anchor after SetPage marks the page drawn on.", "quantifier": "every document history without an intermediate output that does not panic: any interleaving of pages, drawings, links, bookmarks, anchors, callbacks and restarts, any number of each", "why_tests_cant": "destinations are object numbers fixed when the bookmark or anchor is set and page lists are built at output; agreement is needed for every history between the two", "anchors": ["gopdf.go: AddOutline, AddOutlineWithPosition, SetAnchor, AddInternalLink, AddPageWithOption, SetPage", "outlines_obj.go: AddOutline, AddOutlinesWithPosition", "annot_obj.go: write", "pages_obj.go: write"]}
{"id": "C78", "title": "Opening the written file from its bytes shows the bookmarks and links set", "statement": "Take the bytes of a written document (for a protected one, also the user or the owner password). A reader that follows the cross-reference table, trailer and catalog to the outline finds, through the first and next links, exactly the bookmarks the calls set, in order, each with the text of its title and a destination on the page it was set on (counted in the page list). Through the page list and each page's annotations it finds exactly the links set on each page, in order, each with the rectangle asked for and leading to the web address given (decrypted) or to the page the anchor was last set on.", "quantifier": "every document history without an intermediate output that does not panic, SetPage, masked images, callbacks and restarts included; every protection and password; every text of the objects not concerned", "why_tests_cant": "all histories; joins object numbers, offsets, dictionary texts, encryption of strings and the order of the page list", "anchors": ["gopdf.go: AddOutline, AddOutlineWithPosition, SetAnchor, AddExternalLink, AddInternalLink, addLink, prepare, compilePdf", "outlines_obj.go: write, AddOutline, AddOutlinesWithPosition", "annot_obj.go: write", "page_obj.go: write", "catalog_obj.go: write"]}
{"id": "C79", "title": "The font descriptor carries the measurements of the font file", "statement": "For every TrueType file that AddTTFFont accepts and every family name, the FontDescriptor object written for it is a PDF dictionary whose Ascent, CapHeight, Descent, FontBBox and XHeight are the values found in the file's head, hhea and OS/2 tables, in thousandths of the em rounded to the nearest integer, whose ItalicAngle is that of the post table, and whose Flags say whether the font is symbolic.", "quantifier": "all accepted font files, all family names made of regular characters", "why_tests_cant": "every combination of table versions, zero typographic values, signs and em sizes; a test compares one or two fonts", "anchors": ["subfont_descriptor_obj.go: write, DesignUnitsToPdf", "fontmaker/core/ttfparser.go: Ascender, Descender, XHeight, CapHeight, Flag, ParseHead, ParseHhea, ParseOS2, ParsePost"]}
{"id": "C80", "title": "Texts are measured, and shown, with the advance widths of the font file", "statement": "For a text whose characters the font has, MeasureTextWidth is the sum of the advance widths the font file gives its characters (hmtx through cmap, in thousandths of the em) plus, with kerning on, of the kerning the file gives its neighbouring pairs, at the current size; MeasureCellHeightByText is the distance between the typographic ascender and descender in the file; the W array written for the font gives every character drawn that same advance width, so a viewer that takes the widths from the document advances by the same amount for every text shown.", "quantifier": "all accepted font files, all texts drawn or measured before, all orderly histories of drawing calls on a page", "why_tests_cant": "ranges over all fonts, texts and call histories; tests measure a few strings in one font", "anchors": ["gopdf.go: MeasureTextWidth, MeasureCellHeightByText", "cache_content_text.go: createContent, kern, convertTTFUnit2PDFUnit", "subset_font_obj.go: AddChars, CharWidth", "cid_font_obj.go: write", "fontmaker/core/ttfparser.go: ParseHmtx, ParseKern"]}
{"id": "C81", "title": "The text of every page can be copied out of the written file", "statement": "For a document built by any sequence of calls that finishes (fonts added, pages added, texts drawn), a reader that has only the bytes of the written file and a password, and follows the cross-reference table, the page tree, each page's resources, the font's ToUnicode stream and the page's content, gets for every page exactly the characters drawn on it, in order.", "quantifier": "all finishing call histories, all texts whose characters the fonts have, protected or not, compressed or not", "why_tests_cant": "it composes the file structure, encryption, compression, resource names, ToUnicode maps and content of arbitrary documents; tests copy text out of a few", "anchors": ["gopdf.go: WriteTo, compilePdf, Text, Cell", "unicode_map.go: write, pdfToUnicodeMap", "cache_content_text.go: write", "subset_font_obj.go: write", "procset_obj.go: write"]}
{"id": "C82", "title": "Every character is shown with the outline and the width of its font file", "statement": "For a document built by any sequence of calls that finishes, a reader that has only the bytes of the written file and a password finds, for every character drawn on every page, an embedded font program, a glyph number and a width such that the glyph number is the one the cmap of the font file added under that family and style gives the character, the width is the one its hmtx gives (in thousandths of the em), and the embedded program holds the same outline data for that glyph and its components as the font file.", "quantifier": "all finishing call histories, all font files the parser accepts with well-formed outlines, all texts whose characters the fonts have", "why_tests_cant": "it ranges over all font files and documents together; tests look at one font and the size of the output", "anchors": ["gopdf.go: WriteTo, AddTTFFont, SetFont, Text", "subset_font_obj.go: AddChars, CharIndex, write", "cid_font_obj.go: write", "pdf_dictionary_obj.go: write, makeFont, makeGlyfAndLocaTable", "subfont_descriptor_obj.go: write"]}
{"id": "C83", "title": "Pixels of PNG pictures survive into the written file", "statement": "When a PNG picture is drawn, a reader who opens the written file (with the password, if it is protected) and follows the name in the page's content through the page's resources, the cross-reference table, decryption, decompression, the PNG predictor, the palette and the soft mask gets exactly the pixels of the PNG file: size, bit depth, colour samples, palette, transparent colour and alpha channel.", "quantifier": "all histories of calls (SetPage under the conditions of C07), all well-formed PNG files of the supported kinds (every size, filter type, pixel value), all passwords and random values, protected or not", "why_tests_cant": "the space of pictures, filter choices, documents and keys is unbounded; a mix-up of planes, references or keys shows only for particular combinations", "anchors": ["image_obj.go:write", "image_obj_parse.go:parsePng", "smask_obj.go:write", "device_rgb_obj.go:write", "gopdf.go:imageByHolder", "gopdf.go:compilePdf"]}
{"id": "C84", "title": "JPEG and GIF pictures survive into the written file", "statement": "For a picture made from a JPEG file and drawn on a page (Image, ImageByHolder and variants, no mask), a reader who opens the written file (with a password if it is protected), turns to the page and looks up the picture's name finds exactly the bytes of the JPEG file as a DCTDecode image, with the width and height of its frame header, eight bits per component, a colour space for its number of components, no mask, and the inks inverted exactly where the file stores them so. A picture made from a GIF file shows the pixels of the PNG file it is converted to, and a PNG file its own pixels (C83).", "quantifier": "all JPEG files with one, three or four components (baseline, extended or progressive; any other segments), all GIF files, all sequences of API calls under the conditions of C76, protected or not, every page and every picture on it", "why_tests_cant": "tests compare a few files byte for byte; they cannot cover all JPEG headers, all histories of calls, object numberings and encryption keys", "anchors": ["image_obj_parse.go: parseImg, parseImgJpg, writeBaseImgProps", "image_obj.go: write", "gopdf.go: ImageByHolder"]}
{"id": "C85", "title": "A predefined page size is the paper it is named after, in any unit", "statement": "A page added with one of the predefined sizes (PageSizeA4, PageSizeLetter, ...), or added without a size to a document started with one, has a MediaBox of exactly that size's points in the written file, whatever unit or conversion factor the document uses and whatever other pages it has; and the points are the paper's size (ISO 216, JIS, inches) to within one point.", "quantifier": "all configurations (unit, custom conversion factor), all sequences of page, margin, drawing, link, anchor and bookmark calls, all predefined sizes, every page", "why_tests_cant": "a test fixes a unit and a size; a size converted twice, or by the document's unit, shows only for particular combinations of configuration and history", "anchors": ["page_sizes.go", "rect.go: UnitsToPoints, unitsToPoints", "gopdf.go: AddPageWithOption, start", "pages_obj.go: write", "page_obj.go: write"]}
