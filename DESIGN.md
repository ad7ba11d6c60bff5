# Formal model of lafriks/go-svg

## What is modelled

All non-test Go code of the repository, function by function, in Gallina
(`rocq/theories`). Every definition cites the file and lines it models.

| file | models |
|---|---|
| `Base.v` | Go itself: outcomes (return, error, panic), state with errors, bounds-checked indexing and slicing, UTF-8 `range` over a string, the used part of `strings` and `strconv` (`Atoi`, `ParseUint`), int32/int64/uint8 wrap-around, maps |
| `Env.v` | what the code takes from outside, as one record `Env`: float64 arithmetic, `math.Sin` etc., `strconv.ParseFloat`, `%4.3f`, Unicode tables above U+007F, `colornames.Map`, the growth rule of `append` |
| `Geom.v` | `matrix.go`, `path.go`, `shapes.go` |
| `Units.v` | `units.go` |
| `PathCur.v` | `parse_path.go` |
| `Cursor.v` | `types.go`, `mask.go`, `patterns.go`, `styles.go`, `parse.go`, the types of `svg.go` |
| `Elements.v` | `svg_elements.go`, `parse.go` `readStartElement`, `svg.go` `Parse`/`ParseFile` |
| `Render.v` | `renderer/options.go`, the three renderers as lists of calls on the external graphics context |
| `F64.v` | the binary64 instance of `Env` (standard library `SpecFloat`), trigonometry left as a parameter |
| `RealEnv.v` | the instance with exact real arithmetic, for geometry and matrix laws |

The model is a total function parametric in `E : Env`. A theorem `forall E, ...` holds for
every arithmetic, so in particular for float64, with no law assumed. Theorems that need a law
list it as a hypothesis; geometry is proved for `RealEnv`; counterexamples use `F64`.

### Modelling choices

* A Go `string` is a Coq `string` (bytes). `range` decodes UTF-8 exactly, invalid bytes included.
* Errors keep the state (`M S A = S -> S * outcome A`), as Go keeps what was mutated before the
  error return. A panic is `Panic`.
* Recursion of `use` through `drawFuncs`, the angle loop of the circular `addArc` and the
  recursion of `getMask` take fuel; running out is the separate outcome `NoFuel`, never a normal
  result. All other loops are structural.
* The XML decoder (encoding/xml, external) is not modelled: `parse` takes its token list and the
  final `io.EOF` or error. Where a theorem relies on the decoder's well-nesting check, that is
  an explicit hypothesis.
* Slices that can alias observably are modelled with a heap: the `Masks []string` of a style
  (address, length, capacity; `append` writes in place when there is room). Gradients are held by
  pointer in a heap. The other slices are never shared after a write; the comments say why.
* `log.Println` appends to a log in the state.
* Renderers: the external contexts (`rasterx`, `draw2d`, `gg`) are represented by the calls made
  on them. `rasterx`' `GetPathExtent` is an oracle of the calls. What the libraries do with the
  calls (pixels) is not modelled. Where a claim needs it, a small semantics of the current path of
  the context is given next to the theorem and says which library calls it interprets.
* Conversions from float64 to an integer type (`int(f)`, `int32(f)`, `uint32(f)`) of a value that
  does not fit are implementation-dependent in Go; in `F64` they are oracles (`o_int`, `o_i32`,
  `o_u32`). The examples use what amd64 does. Theorems that depend on one say so (`nan_low`,
  `nan_laws`).
* Fused multiply-add is not modelled: `F64` rounds every operation separately, as the Go compiler
  does on amd64 at its default level. Go may fuse `x*y + z` on arm64, ppc64le, s390x, riscv64 and
  with GOAMD64=v3; the theorems about rounding (those over `F64`) do not speak about such builds.
  The theorems over a generic `Env` do not depend on it except through the shape of the formulas.
* Not modelled: charset conversion; file I/O beyond "open fails / gives a token stream".

## Trusted base

* Coq 8.16.1 kernel.
* `Print Assumptions` is run below every property theorem (`Properties*.v`). It lists nothing
  ("Closed under the global context") for the theorems over a generic `Env` and for those over
  `F64` that only compute. The theorems over `RealEnv`, and those over `F64` that use Flocq's
  theorems about rounding (C22_unmoved, C33, C38, C07_zero_radius, C07_*_float64, C28, C48, C55, C57, C59, C60, C62, C63, C64, C65, C66, C67, C68, C70, C73_float64, C73_order, C74_float64, C75_rounding, C75_platforms, C75_modes, C76_float64, C77_float64, C78_float64), use the standard library's real number axioms and
  no others: `ClassicalDedekindReals.sig_forall_dec`, `ClassicalDedekindReals.sig_not_dec`,
  `FunctionalExtensionality.functional_extensionality_dep`, `Classical_Prop.classic`.
* Flocq and Coquelicot lemmas are proved in those libraries; they add no axioms.
* The reading of the Go source: the code is not executed here.
* The mathematical functions sin, cos, tan and atan2, the table of color names, the case and class of
  letters beyond ASCII and the conversion of numbers out of range are fields of `Oracles` with no law.
  Theorems that need a law take it as a hypothesis, and the example beside them shows an instance that
  satisfies it: `nan_laws` and `trig_laws` (C07), `fair_trig` (C63 to C68), `fair_axes` (C68),
  `fair_angles` (C70), `name_table` for documents.
* The behaviour assumed for library calls (`Base.v`, `F64.v`, comments in `Render.v`), and the
  machines in `SpecDraw.v` that say which items rasterx, draw2d and gg paint for a list of calls.
* As a check of the reading, `Conformance.v` runs the repository's own tests (`parse_test.go`) on
  the model: the token streams of the test files are in `ConfData.v`, and the expected values are
  those the Go tests assert.

## Layout of the proofs

`Spec*.v` hold the specifications the statements refer to (independent of the model's helpers),
`Proofs*.v` the proofs, `Properties*.v` only theorems closed by `exact`, each followed by
`Print Assumptions`, with an `Example` showing that its hypotheses can be met.
Suffix `_partial`: only part of the property is proved; `_refuted`: the property as stated is
false of the code, with a witness.

| files | about |
|---|---|
| `Logic.v`, `Triples.v`, `ProofsKeep.v`, `ProofsMode.v` | program logics: preserved relations, two runs, weakest preconditions, triples |
| `SpecPath.v`, `SpecIdle.v`, `ProofsStr/Tok/Num/Seg/Path/Path2/Path3/Path4/Idle.v`, `PropertiesPath.v` | path data |
| `SpecAttr.v`, `SpecStyle.v`, `ProofsUnit/Color/Style/Style2.v`, `PropertiesStyle.v` | lengths, colours, style attributes |
| `SpecDoc.v`, `ProofsDoc/Shape/Flocq.v`, `PropertiesDoc/Shape.v` | elements, shapes, the 1/64 grid |
| `SpecTree.v`, `ProofsAttrs/Frame/Tree/Tree2/Root.v`, `PropertiesTree.v` | meaning of whole documents |
| `SpecLift.v`, `ProofsLift/Lift2/Lift3/Use.v`, `PropertiesLift.v` | outlines do not depend on the rest of the document; path, arc, ellipse and rectangle theorems for documents |
| `SpecInit.v`, `ProofsInit.v`, `PropertiesInit.v` | initial values of style properties |
| `SpecErase.v`, `ProofsErase.v`, `SpecNoise.v`, `ProofsNoise.v`, `PropertiesErase.v` | what may be left out of a document: unknown attributes, mask attributes, comments, stray text |
| `SpecOrder.v`, `ProofsOrder.v`, `ProofsOrder2.v`, `ProofsOrder3.v`, `PropertiesOrder.v` | documents with their attributes in another order |
| `SpecSize.v`, `ProofsSize.v` to `ProofsSize5.v`, `PropertiesSize.v` | the size of a drawing against the size of its document |
| `SpecSafe.v`, `ProofsGrad/Masks/Result.v`, `PropertiesSafe.v` | results, gradients, mask lists |
| `PropertiesMode.v` | error modes |
| `SpecTidy.v`, `ProofsFlags.v`, `PropertiesTidy.v` | titles, descriptions, definitions |
| `SpecEnd.v`, `ProofsFuel/End/Angle/End2.v`, `PropertiesEnd.v` | termination and panics |
| `SpecMatrix.v`, `ProofsMatrix.v`, `PropertiesMatrix.v` | transforms over the reals |
| `SpecArc.v`, `ProofsArc/Arc2/Arc3/Round.v`, `PropertiesArc.v`; `SpecArc64.v`, `ProofsArc64.v`, `PropertiesArc64.v`; `SpecRect.v`, `ProofsRect.v`, `PropertiesRect.v` | arcs, ellipses, rounded rectangles |
| `SpecDraw.v`, `ProofsDraw/Draw2/Target.v`, `PropertiesDraw.v` | renderers |
| `SpecText.v`, `ProofsDec/Text.v`, `PropertiesText.v` | path text output |
| `ProofsF64.v`, `Ex*.v` | facts about float64, data for the examples |
| `SpecGrow.v`, `ProofsGrow.v`, `PropertiesGrow.v` | what a longer document adds |
| `SpecCalm.v`, `ProofsCalm.v`, `PropertiesCalm.v` | absence of panics for arbitrary token streams |
| `SpecStream.v`, `ProofsStream.v`, `ProofsStream2.v`, `PropertiesStream.v` | termination for arbitrary token streams, independence of the fuel |
| `SpecPaint.v`, `ProofsPaint.v`, `SpecPicture.v`, `ProofsPicture.v`, `ExPaint.v`, `PropertiesPaint.v` | what draw2d and gg paint for every document; the renderers agree |
| `SpecRename.v`, `ProofsRename.v`, `PropertiesRename.v` | renaming of ids: related attributes, tokens and documents (C51) |
| `SpecWho.v`, `ProofsWho.v`, `PropertiesWho.v` | which element draws which path, in the picture and inside masks, and its mask list (C14, C32) |
| `SpecFlat.v`, `ProofsFlat.v`, `PropertiesFlat.v` | groups and the attributes of their children (C52) |
| `SpecEdit.v`, `ProofsEdit.v`, `PropertiesEdit.v` | shapes replaced, deleted and swapped (C53) |
| `SpecScale.v`, `ProofsScale.v`, `PropertiesScale.v` | drawings that differ by a factor; renderers on a larger target |
| `SpecClose.v`, `ProofsClose.v`, `PropertiesClose.v` | the same drawing in binary64 and with reals, and how far apart the two may be |
| `SpecLong.v`, `ProofsLong.v`, `PropertiesLong.v` | path data written out in full |
| `SpecRead.v`, `ProofsRead.v`, `ProofsReadPath.v`, `PropertiesRead.v` | decimal numerals, path data read with float64 and with real numbers |
| `SpecSpell.v`, `ProofsSpell.v`, `PropertiesSpell.v` | elements written in another way (C58) |
| `SpecMeasure.v`, `ProofsMeasure.v`, `PropertiesMeasure.v` | lengths and shape elements in float64 and in exact arithmetic |
| `SpecNatural.v`, `ProofsNatural.v`, `ProofsCoord.v`, `PropertiesNatural.v` | drawing a document into its own view box |
| `SpecMistake.v`, `ProofsMistake.v`, `ProofsMistake2.v`, `ProofsMistake3.v`, `PropertiesMistake.v` | documents with mistakes |
| `SpecLand.v`, `ProofsLand.v`, `PropertiesLand.v` | where the points of a document land on the page |
| `SpecTrig.v`, `ProofsCircle.v`, `SpecCurve.v`, `ProofsCurve.v`, `SpecCircle.v`, `ProofsCircle2.v`, `PropertiesCircle.v` | circles and ellipses in float64: their control points and the curve they run along |
| `SpecPage.v`, `ProofsPage.v`, `PropertiesPage.v` | circles and ellipses on the page |
| `SpecTurn.v`, `ProofsTurn.v`, `ProofsTurn2.v`, `PropertiesTurn.v` | transform attributes in float64 and transformed figures on the page |
| `SpecOval.v`, `ProofsOval.v`, `PropertiesOval.v` | transformed circles and ellipses on the page |
| `SpecPlane.v`, `ProofsPlane.v`, `PropertiesPlane.v` | figures as sets of points of the plane, and what is drawn of them |
| `SpecCorner.v`, `ProofsCorner.v`, `ProofsCorner2.v`, `ProofsCorner3.v`, `ProofsCorner4.v`, `ProofsCorner5.v`, `ProofsCorner6.v`, `ProofsCorner7.v`, `PropertiesCorner.v` | rectangles with rounded corners as sets of points, and their outlines in float64 |
| `SpecRunes.v`, `ProofsRunes.v`, `PropertiesRunes.v` | texts as lists of characters in UTF-8, and number lists in them |
| `SpecArcNear.v`, `ProofsArcNear.v`, `ProofsArcNear2.v`, `ProofsArcNear3.v`, `ProofsArcNear4.v`, `ProofsArcNear5.v`, `ProofsArcNear6.v`, `ProofsArcNear7.v`, `ProofsArcNear8.v`, `ProofsTrace.v`, `ProofsArcNear9.v`, `PropertiesArcNear.v` | arcs in binary64 against the arcs of SVG, with all rounding errors |
| `SpecData.v`, `ProofsData.v`, `PropertiesData.v` | path data over any text: which texts are accepted, and what they draw |
| `SpecTrans.v`, `ProofsTrans.v`, `PropertiesTrans.v` | transforms: which texts are accepted, and what they are read as |
| `SpecLocal.v`, `ProofsLocal.v`, `PropertiesLocal.v` | documents element by element: accepted exactly when each element is |
| `SpecValid.v`, `ProofsValid1.v`, `ProofsValid2.v`, `ProofsValid.v`, `ProofsValid3.v`, `ProofsValid4.v`, `PropertiesValid.v` | exactly which documents are accepted, and which texts are lengths, colours, references and declarations |
| `ProofsMono.v`, `PropertiesMono.v` | what acceptance does not depend on: rounding, platform, and the mode when it is not strict |
| `SpecPanic.v`, `ProofsPanic.v`, `ProofsPanic2.v`, `PropertiesPanic.v` | exactly which documents make the parser panic, and which colours |
| `SpecPrefix.v`, `ProofsPrefix.v`, `PropertiesPrefix.v` | what Parse makes of documents that are cut off anywhere |
| `SpecReshape.v`, `ProofsReshape.v`, `PropertiesReshape.v` | edits that keep a document accepted, and documents made of pieces |
| `SpecEndless.v`, `ProofsEndless.v`, `PropertiesEndless.v` | exactly when drawing a parsed document with gg ends (C36) |
| `ConfData.v`, `Conformance.v` | the repository's tests |

## Plan per property

| id | plan |
|---|---|
| C01 | An independent interpreter of SVG path commands (`SpecPath.v`), abstract syntax and a relation "this string is a legal spelling of these commands". Refinement: `compilePath` on any spelling yields the interpreter's operations; lifted to documents. `E` and `e+` exponents and a second `Z` without `M` in between are refuted. |
| C02 | Same spelling relation for number lists; induction over the list with the tokenizer state. |
| C03 | Same, with a badly counted command at the end. |
| C04 | Simulation relation between two cursors; every segment function preserves it. |
| C05 | Bounds invariants for every index and slice in `parse_path.go`; no fuel is used there. |
| C06 | Relational proof over the whole parser: two runs in different modes. |
| C07 | The segment loop with an arbitrary relation for the arc; exact over the reals; over float64 an arc whose measures are between 2^-50 and 2^50 is always drawn (bounds carried through every rounded operation, with a relative error bound for the rotation), others may draw nothing (`_refuted` for a zero radius); several arcs in one command reuse the first arc's parameters (`_refuted`). Lifted to documents. |
| C08 | Algebra over the reals on `findEllipseCenter` and `ellipsePointAt`; choice of arc by the flags; lifted to documents. |
| C09 | String lemma on suffix removal; factors over the reals. |
| C10, C11 | Case analysis on digits lifted to all strings; `Atoi` on decimal strings by induction. |
| C12 | False: `fill=""`, `#12`, `rgb(,,)` panic. `_refuted` with witnesses; the exact set of panicking strings is characterised. |
| C13 | Induction over trees with the stack as invariant. `use` breaks it (`_refuted`). |
| C14 | Refinement of the token machine to a recursive evaluator that passes the inherited style down. |
| C15, C16, C37 | Case analysis of `readStyleAttr` with frame lemmas; induction over chains. |
| C17 | `field` over the reals. `Mult` is not composition: exact condition and witness. |
| C18 | Single functions at top level are right; rotation about a point, lists and nesting are refuted. |
| C19 | Case analysis of `parse`. |
| C20 | Fold over the attributes. |
| C21-C24 | Unfolding, induction over point lists; geometry over the reals. Rounded rectangles with rx <> ry are misplaced (`_refuted`). Shape without `points` reuses old points (`_refuted`). |
| C25, C26 | Invariants over token lists. |
| C27 | For definitions of shapes, groups and nested `use`, of any geometry: exactly what is drawn. Arcs inside a use lack the offset at their end point, the elements of a definition lose their own styles, a path discards what the definition drew before it, a nested `use` drops the outer offset (all `_refuted`). Groups with ids inside are refuted under C29 and C26. |
| C28 | False for cyclic definitions (`_refuted`); proved for all token streams with acyclic references, with an explicit bound, by an invariant that follows a machine on tokens (`stream_refs`); results do not depend on the fuel. |
| C29 | False (`_refuted`); proved for arbitrary token streams without the colour strings of C12, whose ends follow starts and, if there is a `use`, whose `</g>` stay in the group of their `<g>`. Documents without `use` need only the first condition. |
| C30, C40 | Invariant of the cursor over all reachable states. |
| C31 | Fold over the attributes. |
| C32, C39 | Heap invariant; refuted by aliasing for three nested masks; proved up to that. |
| C33 | False for every path with a cubic (`_refuted`); for the others the exact effect of writing and reading a coordinate. |
| C34 | No `Target` collapses everything to one point (`_refuted`); exact conditions under which `Target` maps the view box onto the rectangle. |
| C35 | A machine per library that says what a list of calls paints; equality of painted items with the document; leaks in gg and draw2d refuted. |
| C36 | From C30; self-masking documents make gg recurse forever (`_refuted`); terminates exactly when no drawn path leads into a circle of masks (pigeonhole on chains of masks). |
| C38 | Real-number bound on truncation. |
| C41 | Exact factor for all similarities over the reals: k cos a (`_refuted` for rotations). |
| C42 | Relational proof per shape function: two parser states with the same view box, offset and mode draw the same outline; lifted to documents by making the document semantics parametric in the geometry. |
| C43 | Induction over the document semantics: a part no declaration names keeps the initial value; table of initial values written independently of the model's default style; width and join refuted against SVG. |
| C44 | Two-run simulation of the whole parser (relation on states and returned values); with fewer attributes every read gives the same state. |
| C45 | Same simulation with a relation that forgets mask lists and the memory of mask slices. |
| C46 | Comments: equality of runs by induction on the recutting. Text: flags title/desc are off outside those elements, from the invariant of C25. |
| C47 | Any two attribute loops over permuted lists agree when neighbouring steps commute (`fold_perm`); commutation of each element's attribute reader case by case, style attributes through the declarations they stand for; then a simulation of whole parses that relates definitions with permuted attributes and forgets the leftover numbers of earlier elements. Restriction: two attributes of an element are about different things. Refuted without it: `fill` beside `style="fill:..."`, `r` beside `rx`. |
| C48 | Every parser step adds at most a constant per character to the operations stored in paths, masks and the unfinished path; the constant comes from the number of curves of an arc, bounded in real arithmetic by the range of atan2 and in binary64 by monotonicity of rounding. Restriction: no use elements, points attributes present. Refuted without it: chains of uses double what is drawn (no polynomial bound, from the meaning of documents of C14), and polylines without points redraw earlier numbers. |
| C49 | Each parser function relates the states before and after by a growth relation on the document and its log; composed over the token stream. |
| C50 | A picture of marks defined from the document alone; each renderer's painted items match it one by one, from the exact descriptions of C35. |
| C51 | simulation between the two runs: the maps have renamed keys, the memory of the mask slices is mapped, definitions have related attributes, everything else is equal |
| C52 | simulation between the two runs, in which the stack of the first has one more style; a declaration other than transform and mask reads only the view box and the gradients and changes nothing but the style (decl_local) |
| C53 | relational logic (rel2) for states that differ in the middle of the path list and in the leftovers of the path cursor, through every function of the parser; a frame lemma for the edited elements |
| C54 | Over the reals the matrix of Target, and its product with the transform of a path, is linear in the size of the rectangle; truncation to 1/64 moves each side by at most one unit. The call lists are compared by relations that list which arguments scale and which stay. |
| C55 | Each float64 value is paired with its real counterpart, a bound on its size and a bound on the error in units of 2^-100; sums, products, quotients and halves add to both, and truncation of two numbers less than 1 apart gives integers at most 1 apart. The call lists are related one by one; gg masks by induction on the fuel. |
| C56 | By the pen semantics of C01: each argument set of a shorthand moves the pen as its longhand does. |
| C57 | Nearest reading from the exact decimal conversion of F64.v; the error of the pen grows linearly, that of control points quadratically with the number of argument sets; truncation to 1/64 adds at most one step. |
| C58 | A relation between parser states with the same drawing whose stored definitions are respellings of each other, kept by every token of two runs that succeed. Shapes draw the same from every state (ProofsFrame), so it suffices to compare two elements on their own. |
| C59 | Every operation from the text to the grid has a relative error of 2^-53; the sum of the errors stays far below 1/64, so truncation changes each coordinate by at most one step. Zero and sign of a length are exact, so the branches taken agree. Lifted to documents by the faithfulness argument of C14. |
| C60 | In float64 w/w is 1 and x-x is 0, so the target matrix is the identity and multiplying a 32-bit coordinate by it is exact. Two invariants of the parser, proved through one induction over the tokens that is generic in the property of paths and styles: every drawing function appends points converted to int32; a declaration other than transform keeps the matrix. |
| C61 | A computation that never returns normally stays so under bind, folds and deferred functions. The wrong values are shown to be rejected by the reading functions by inverting trimming and splitting. An invariant over the tokens before the element says whether a defs or gradient element is open and which ids are stored; strict mode is kept by the simulation of C06. |
| C62 | C59 gives the stored outline within 1/64 of every exact outline; C55's error analysis gives the place of a stored point within 2/64; the exact map moves points that differ by 1/64 by at most the sum of its entries. |
| C63 | The float64 recursion over the 17 pieces stays within 1/128 of the exact one, so truncation to the grid changes each coordinate by at most one step. A cubic with that handle length deviates from the unit circle by m^3 * bend with m = s(1-s), an identity in the tangent of the half angle; 17 pieces and a radius of 2^16 give less than 1/32. The intermediate value theorem gives a point of the curve in every direction. |
| C64 | C62 puts the control points near the image of the exact ones. Bezier curves commute with affine maps, so the argument of C63 for the curve between them carries over with the tolerances of C62. |
| C65 | Relative errors of sums and products against a bound that each function multiplies by its growth, by induction over the list; then the matrix entries of C62 are replaced by the exact ones, whose map C18 knows. |
| C66 | C64 gives the curve under the float64 matrix, C65 the distance of that matrix from the exact one, and the tolerances add up. Circles under similarities by induction over the list. |
| C67 | The grid moves a point by at most 1/64, C62 gives the place of grid points, and Bezier curves of nearby points are near; outlines one after the other cover unions; ellipses by C64. |
| C68 | Lengths are read with relative error 2^-51; the corners of the straight sides are within one grid step; atan2 of a gap along an axis gives the quarter turn up to 2^-39; the segment count is 4 or 5 either way; cubic segments of such quarter arcs are within r/714 of the circle; the transform about the centre is the identity up to 2^-20. |
| C69 | Decoding inverts encoding for every scalar value, so the runes of a text are its characters with their bytes; the tokenizer as a function of runes (ProofsTok) then gives the words; words consist of digits, dots, e and minus, so they carry no unit. |
| C70 | Errors relative to the half chord give the transformed chord, the radii and the center; the two ends then lie on the ellipse up to 8500 units of 2^-44, atan2 gives their angles up to 26000 such units; chords are long enough that the difference of the angles keeps its sign and size; the cross product of the ends decides between large and small; the error calculus of C63 gives the points of the curves. As sets: the distance of a curve to the center is known exactly (C65), and by the intermediate value theorem every direction between the ends is met and no other. |
| C71 | The segments of the text are its commands with their texts; one command succeeds when it is right, by cases on the letter, and fails otherwise before anything is drawn; the pen semantics of C01 then applies with the numbers of C69. |
| C72 | Each part between closing brackets either reads as blank or as one function, and then the step succeeds, or the step is an error, by following the code backwards from success; then induction over the parts. |
| C73 | A relation between two runs: from any two states at the same place (inside definitions or not, inside a gradient or not) each token has the same outcome and logs the same lines, and leads to such states again; then induction over the tree. |
| C74 | For each reader a condition on the text that holds exactly when it succeeds (acc), composed along the monad together with the invariant of C73; then the run of the document, which is accepted when all its items are. |
| C75 | Each condition of C74 is monotone in the texts that are numbers, the names that are colours, and the mode; in exact arithmetic atan2 lies in one turn, so one step of fuel is enough there too. |
| C76 | For each reader a condition on the text that holds exactly when it panics (pan), composed along the monad with the conditions for success of C74: a sequence panics when its first part does, or succeeds and the second does; then the run of the document. |
| C77 | Induction on documents: a beginning of a forest is some whole nodes and a beginning of the next; the run over the items begun so far is that of C73; then C74 and C76 item by item. |
| C78 | The elements of the edited document, with the places where they stand, are among those of the first or are bare groups; then C74 and C76. |
