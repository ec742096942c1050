## 4. Trusted base

* The Coq 8.16.1 kernel (`vm_compute` included; `native_compute` is not used). The compiled files are also accepted by `coqchk`.
* Axioms: none of our own. `Print Assumptions` stands in the sources after each theorem of section 3 and answers "Closed under
  the global context" for all of them **except** the theorems that speak about float64 as real numbers (files `PropDesign.v`, `PropFace.v`,
  `PropRectF.v`, `PropUnitF.v` and the other files that import `FloatReal.v`), which use the standard library's real numbers and
  so list its axioms: `ClassicalDedekindReals.sig_not_dec`, `ClassicalDedekindReals.sig_forall_dec`,
  `FunctionalExtensionality.functional_extensionality_dep` and `Classical_Prop.classic`. Flocq, on which these proofs rest,
  adds no axiom. (A whole-library listing also shows module-type fields of the standard library: the real numbers' sealed
  definitions `Coq.Reals.Rdefinitions.RbaseSymbolsImpl.*` and `RinvImpl.*`, and seven fields `Coq.ssr.ssrunder.Under_rel.*` of the
  ssreflect files, loaded but used by no theorem.) No axiom, parameter, functor, module type or
  unfinished proof is defined here; section variables are discharged, so what a theorem needs stands in its statement.
* The hand transcription Go → Gallina, checked only by reading and by the seeded-bug experiments of section 6.
* Go's own semantics as assumed by the model: strings as byte lists with the UTF-8 iteration of `range`, `append` on slices
  (aliasing modelled only where it matters: C35, C36, C53, C70), maps as association lists (iteration order quantified where a
  result could depend on it), integers unbounded except where the code's conversion to a sized type matters (fonts, PNG, Buff,
  permissions), float64 as IEEE binary64 (SpecFloat, round to nearest even), `fmt`'s `%d %x %s %f %.Nf` verbs as written out in
  `Base`/`NumModel`, one thread (except C53 and C68, which interleave).

## 5. What is not modelled

* zlib: any pair of functions that are inverse to one another (C37) or any function (C33). Go's image decoders: any function
  giving width, height and colour model (C84: its contract is `knows`); JPEG data are passed through unread.
* `gofpdi`: an oracle with the contract `fpdi_page` (C67); its objects are arbitrary text in the file layer.
* The file system: reading a path gives some bytes or an error (C66 lets files change between calls).
* `math.Sin`, `math.Cos`, `math.Pow10`: any functions (with values between 0 and 1 on the first quadrant in C56).
* The parsed font is treated as immutable after parsing (no code in `/repo` writes it).
* The command-line tool `fontmaker` (a separate program that writes Go source for the old, unused core-font path) and the dead
  code of that path (`font_obj.go`, `encoding_obj.go`, `fontconverthelper.go`, `strhelper.go`); getters without behaviour.
* Exact rationals instead of float64 are used where the property is about geometry to within printing precision; each such
  theorem says so in its note ("exact arithmetic"). Theorems that say "any number type" hold for float64.
* Memory exhaustion, integer overflow of Go `int` in sizes, and panics inside user callbacks.

## 6. Seeded bugs

`seeded/run.py` applies each edit of `seeded/mutants*.py` (a definition of the model, changed the way a real bug would change the
program) to a scratch copy and rebuilds what depends on it with `make -k`; it records which `Cnn_` theorems are lost.
`seeded/mklog.py` writes `LOG.jsonl`: definition, edit, claim broken, theorems that failed, theorems tightened afterwards.
`seeded/tightened.json` holds the dispositions of edits that first survived (a theorem strengthened, a new one added, or a
remark why the edit is not visible in any output).
