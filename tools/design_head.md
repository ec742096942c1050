# Formal model of signintech/gopdf in Coq — design

## 1. Method

* Every piece of Go is transcribed by hand, function by function, into small total Gallina functions (`*Model.v`). Each
  definition cites the file and lines of `/repo` it models and says where it simplifies.
* Each property has a small *specification* (a `*Spec.v` file, or the section "Specification" at the head of the proof file)
  that does not use the model's helpers: a PDF reader for file layout and object syntax, the PDF literal-string rules,
  UTF-16BE, the cmap and glyf definitions, MD5 and RC4, a page-painting viewer, an abstract "list of pages" machine …
* The property theorems are in `Prop*.v` (and `FontOut*.v`), named `Cnn_…`, each followed by `Print Assumptions` and, per
  property, by an `Example Cnn_met` (or `…_demo`) showing a concrete non-trivial case that meets the hypotheses.
* Where the code violates the property, the theorem is called `…_refuted` and exhibits a witness in the faithful model (or
  proves the failure for every input); beside it stands the strongest true statement.
* A claim is "proved" in MANIFEST.json only if the theorems cover the English statement as written, exact side conditions in
  the note; otherwise "partial", and the note says what is refuted and what is missing.

## 2. Files

| layer | model | specification and proofs |
|---|---|---|
| file: xref, trailer, streams of writes, `Read` | `FileModel` | `FileSpec`, `FileProofs`, `PropFile` |
| document: object table, pages, caches, callbacks, output | `DocModel` | `DocSpec`, `DocProofs`, `DocInv`, `PropDoc`, `PropSetPage`, `PropImage`, `PropName*`, `PropRef*` |
| strings, dates | `StrModel` | `StrSpec`, `PropStr`, `PropDate` |
| protection | `SecModel`, `Crypto` (MD5, RC4 in full) | `SecSpec`, `PropSec`, `PropStream2` |
| stream objects and every other object, byte for byte | `StreamModel`, `ObjModel`, `RefModel` | `StreamSpec`, `PdfSyntax`, `PdfRead`, `PropStream`, `PropObj*` |
| text splitting, paragraphs | `SplitModel`, `MultiModel` | `PropSplit`, `PropMulti` |
| fonts: parser, cmap, hmtx, kern, subset, embedded font | `TtfModel`, `SubsetModel`, `FontOutModel`, `ContainerModel` | `TtfSpec`, `TtfProofs`, `PropTtf`, `PropSubset`, `FontOutSpec`, `FontOut*`, `PropFont`, `PropContainer` |
| numbers: Go's float64 and `%f` printing | `NumModel` (SpecFloat; exact rationals beside it) | `NumRead`, `PaintNum` |
| units, margins, page breaks | `UnitModel` | `PropUnit` |
| content streams | `DrawModel` | `DrawSpec`, `DrawLex`, `DrawNest`, `DrawView`, `PaintSpec`, `DecoSpec`, `PropDraw`, `PropText`, `PropWidth`, `PropAlign`, `PropColour`, `PropPaint`, `PropDeco` |
| transparency, outlines, rounded rectangles, tables, placeholders, Arabic | `TrModel`, `OutlineModel`, `RectModel`, `TableModel`, `PlaceModel`, `ArabicModel` | `Prop…` of the same name |
| images: PNG parser, placement, holders | `PngModel`, `ImgModel`, `HolderModel` | `PropPng`, `PropImagePlace`, `PropHolder` |
| importing pages | `ImportModel` | `PropImport` |
| buffer pool under concurrency | `PoolModel` | `PropPool` |

## 3. Properties: what is proved, where

Per property: status, what the theorems say and what is missing, then the theorems by file (prefix `Cnn_` dropped).

