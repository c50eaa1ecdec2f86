# Design of the formal model of heavyfishdesign

The properties are listed in `properties.jsonl`.  This file says, for each of them, which code is modelled, how the theorems are proved and what came out.
`MANIFEST.json` maps properties to theorem names.  The theorems of property Cxx are in `rocq/theories/Prop_Cxx.v`, each with at least one
`Example` that instantiates its hypotheses with something concrete.

## 1. General approach

* The model is a set of total Gallina functions, one per Go function that matters to a property, each with a comment citing file and lines in the source.
  The code was only read, never run; there is no extraction and no generated code.
* **Numbers.** Go's `float64` is modelled by a record of operations without laws, `Num` (Num.v): integers, `+ - * /`, negation, `sqrt`, `abs`, `<`, `<=`, `==`, `IsNaN`,
  the decimal digits of `fmt.Sprintf("%.nf")` and the reading of decimals.  Instances:
  * `FNum` (FloatNum.v): IEEE binary64 from the standard library's `SpecFloat` (pure Gallina), with correctly rounded decimals.  Used for
    witnesses computed with `vm_compute`, and for theorems about rounding (with Flocq 4.1.0, IeeeProofs.v, IeeeArith.v, RelError.v).
  * `RNum` (RealNum.v): the extended reals `Fin r | Inf sign | NaN` with exact operations.  This is what "exact arithmetic" means.
  *Structural* theorems (about lists of segments, maps, trees) are proved for every `Num`, some under laws (`EqLaws`, `OrdLaws`, `PackLaws` in NumLaws.v, BinPackProofs.v) that are proved of both instances:
  they hold of binary64 bit for bit.  *Geometric* theorems are proved for `RNum` and say nothing about rounding errors.
* **Transcendental functions** are a record `Trig` (sine, cosine, arctangent, pi), with `BMath` (acos, pow, round) and `FloorOps` (floor) beside it.  The real instances `RTrig`, `RBMath`, `RFloor` are
  the real functions.  Where a theorem does not mention an instance it holds for any.
* **Errors and panics.** `res` has four constructors: `Ok`, `Err` (a returned Go error), `Panic` (index out of range, nil dereference) and `OutOfFuel`.
* **Slices** are lists; where the code depends on writes to a shared backing array (`JoinTransform` with `ClosePath`) the write is modelled explicitly.
* **Maps.** `dynmap` is modelled with an explicit heap (DynModel.v), so that sharing between maps is visible; iteration order is a permutation that the theorems quantify over.
  Elsewhere maps are association lists.
* **Loops and recursion** are structural, folds, or fuelled with `OutOfFuel`, which the theorems exclude by exhibiting enough fuel, or whose reachability for every amount of fuel is the finding.
* **Components** see variables set by their parents.  A child is modelled as a function from the variables its parent sets (and the pen position) to a path; the expression language is a parameter.
* Each property has a small specification of its own at the top of its file or in PathSpec.v, GeomSpec.v (`contiguous`, `drawn`, `inDrawing`, `tightBox`, `motion`, ...), written without the model's helpers.
* Names: `..._partial` proves part of a claim, the comment says what is missing; `..._refuted` is a theorem that the claim is false of the model, with a witness.
* **Wrong programs.** `seeded/LOG.jsonl` records deliberate mistakes put into copies of the model, and which theorems failed.  A mistake that broke nothing led to a stronger theorem; the log says which.

* **The code's own tests.** TestsTransforms.v, TestsPaths.v, TestsMaps.v and TestsSvg.v run the inputs of the repository's `_test.go` files of `transforms/`, `path/`, `bezier/`, `dynmap/`, `dom/` and of `parser/svgparser_test.go` on the model in binary64
  (with sine, cosine and the like as package math computes them, TestMath.v) and compare with the results those tests expect, to the printed digit or the last bit.
  The TestsDesigns*.v files render 35 of the designs of `designs/` (edges, joints, holes, panels of the game cabinet, the sides and lid of the house, the box) and compare with the sheets in `designs_rendered/`, text for text;
  only the parameters and expressions in the designs were evaluated by hand.  All agree.  They are checks of the model's fidelity, not claims.

## 2. Per property

### C01 Drawing operations always leave a contiguous path (proved)

*Modelled:* `path/draw.go` (all operations) in DrawModel.v.
*How:* inductive type of drawing calls; invariant `contiguous` by induction over the list of calls, any `Num`.
*Outcome:* For every sequence of drawing calls and every number system (no law assumed); in exact arithmetic, the strokes that the calls add (C01_strokes).

### C02 SVG text of a path parses back to the same drawing (partial)

*Modelled:* `SvgString`, `ParsePathFromSvg`, `next`, `getNextFloats`, both regular-expression rewrites, `ParseFloat` on decimal text, in SvgParse.v.
*How:* printing then parsing by induction over segments (SvgProofs); the numbers by exact decimal arithmetic on binary64 (IeeeProofs, SvgProofs2).
*Outcome:* Round trip proved for every float type and for all binary64 paths (incl. NaN/Inf): kinds, order, distance, fixed point; reprint identical unless a coordinate prints as -0.00 (that part REFUTED by a witness).

### C03 Equality to a number of decimals is an equivalence relation (proved)

*Modelled:* `PrecisionEquals`, `PrecisionCompare`, `EqualsPrecision` in PathModel.v.
*How:* equality of texts is an equivalence; distance from the definition of the printed digits (PrecisionProofs), for binary64 through Flocq (IeeeProofs).
*Outcome:* Equivalence for every float type; closeness for binary64 (real value of the float) and exact reals; specials equal only themselves.

### C04 Values closer than half an ulp of the last decimal around zero compare equal (partial)

*Modelled:* same.
*How:* refuted by computation on `FNum`; proved away from sign changes and NaN.
*Outcome:* REFUTED: values of opposite sign rounding to zero print -0.000/0.000 and differ; compare(NaN,x)=compare(x,NaN)=1. Proved: same-sign case and antisymmetry away from NaN and opposite zeros.

### C05 Path constructors and trimming keep exactly the drawn segments (proved)

*Modelled:* constructors and trims of `path/path.go`, `path/util.go` in PathModel.v.
*How:* list induction (PathProofs).
*Outcome:* For every list of segments and every number system.

### C06 Splitting a path on moves loses nothing (proved)

*Modelled:* `SplitPathOnMove`, `IsEmptyPath`, `Draw.AddSegment`.
*How:* loop invariant.
*Outcome:* For every contiguous path.

### C07 Cleanup yields a well-formed path with the same drawing (partial)

*Modelled:* `CleanupTransform` in TransformsModel.v.
*How:* loop invariant (CleanupProofs); needs `EqLaws`, shown of both number types.
*Outcome:* REFUTED for paths containing a segment with a NaN end (C07_contiguous_refuted); well-formedness proved for every other path, drawing preservation and absence of NaN ends proved for all paths.

### C08 Dedup removes only redundant moves and back-and-forth pairs (partial)

*Modelled:* `DedupSegmentsTransform`.
*How:* stack invariant (DedupProofs).
*Outcome:* REFUTED: panics for a path without leading move (C08_panics_refuted); proved in full for every path with a leading move, which is every path made by NewPathFromSegments.

### C09 Reversing a path reverses the drawing, and twice is the identity on it (proved)

*Modelled:* `PathReverse`, `SegmentReverse`.
*How:* list induction with `rev`.
*Outcome:* For every contiguous path.

### C10 Reordering never loses a stroke (proved)

*Modelled:* `ReorderTransform`.
*How:* permutation up to reversal, invariant of the selection loop (ReorderProofs).
*Outcome:* For every contiguous path; also the effect of the whole transform including its final Dedup.

### C11 Joining yields one contiguous stroke (partial)

*Modelled:* `JoinTransform.join`, `Join`, `JoinLines`, `JoinCurves`, `joinLineCurve` and what they call, in SegOps.v/TransformsModel.v.
*How:* fuelled recursion with a measure (JoinProofs); contiguity of whole paths of curves by a chain invariant (JoinChain), of pairs over `RNum` (JoinProofs2).
*Outcome:* Termination and shape proved; contiguity proved for paths of curves (C11_curves) and for joining any two strokes except parallel lines and curves met at an end (C11_pair_partial, exact arithmetic), where it is REFUTED (C11_contiguous_refuted, C11_far_end_refuted).

### C12 Closing a path makes the end meet the start (partial)

*Modelled:* closing step of `JoinTransform.PathTransform`, with the write to the shared backing array.
*How:* case analysis; refutation on `FNum`.
*Outcome:* REFUTED (C12_closes_refuted: three sides of a rectangle stay open); proved when the outer strokes meet to precision, are intersecting lines, or are both curves, and for whole paths of curves (C12_curves).

### C13 Combining paths keeps every stroke visible (partial)

*Modelled:* `SimpleJoin.JoinPaths`; the specification is an SVG pen interpreter.
*How:* list induction; refutation by a two-path witness.
*Outcome:* REFUTED for later paths not beginning with a move (C13_refuted) and for no paths (panic); proved otherwise.

### C14 Translation transforms are rigid and exact (proved)

*Modelled:* `ShiftTransform`, `MoveTransform`, `PointPathAttribute` in GeomTransforms.v.
*How:* every transform is an affine map of the drawing (AffineProofs), handles through tight boxes (HandleProofs), over `RNum`; in binary64 (FloatGeom) every point within a few roundings, and boxes of straight drawings only compare coordinates.
*Outcome:* exact arithmetic, curve control points below 2^63; in binary64 a shift is exact up to one rounding for every drawing (C14_binary64), exact on a grid (C14_grid), and a move of a straight drawing places its corner up to two roundings (C14_move_binary64); the handle $START_POSITION, outside the statement, is not placed (C14_start_position_refuted)

### C15 Trimming whitespace puts the drawing at the origin (proved)

*Modelled:* `TrimWhitespaceTransform`.
*How:* as C14, box of a displaced drawing.
*Outcome:* exact arithmetic; idempotence for coordinates below 2^62; in binary64 a straight drawing is put at the origin exactly and trimming again changes no number (C15_binary64, C15_binary64_idempotent)

### C16 Scaling to a size reaches that size (proved)

*Modelled:* `ScaleTransform`.
*How:* as C14, diagonal affine map.
*Outcome:* exact arithmetic; C16_positive_needed shows why the drawing's size must be positive; in binary64 straight drawings reach the size up to eight roundings (C16_binary64, C16_binary64_width, C16_binary64_height)

### C17 Rotation is a rigid motion about the chosen axis (proved)

*Modelled:* `RotateTransform`.
*How:* affine map with cosine and sine, algebra with `sin2_cos2` and the addition theorems.
*Outcome:* exact arithmetic (real sine, cosine and pi); in binary64, with a cosine and a sine good to eps, every point of a drawing turned about a point is right up to six roundings and eps times a quarter of the range (C17_binary64)

### C18 Mirroring twice restores the drawing (partial)

*Modelled:* `MirrorTransform`.
*How:* affine map, box of the mirrored drawing.
*Outcome:* REFUTED for paths ending in a move out of the box and for handles other than the top left; proved for the default handle and every path whose ends lie in its box

### C19 Matrix transforms compose like SVG matrices (proved)

*Modelled:* `MatrixTransform`.
*How:* affine algebra.
*Outcome:* exact arithmetic; in binary64 up to four roundings, for every drawing (C19_binary64)

### C20 Packed parts never overlap and never leave the sheet (proved)

*Modelled:* `binpacking/binpacking.go` in BinPack.v.
*How:* tree invariant over all insertion histories (BinPackProofs for any `Num` with `PackLaws`, BinPackGeom over `RNum`, BinPackFloat with rounding errors counted along the tree).
*Outcome:* All histories: exactly over the reals, and in binary64 up to at most 2n+1 roundings for n requests (C20_binary64). IsHorizontalSplit is true exactly for the bins divided into parts on top of each other (C20_split).

### C21 Free area is accounted exactly (proved)

*Modelled:* same.
*How:* same invariant; areas.
*Outcome:* All histories, exact arithmetic; refusal without effect also for binary64.

### C22 The Rotated flag tells how the part was placed (partial)

*Modelled:* same.
*How:* same; refuted for exact fits by computation.
*Outcome:* REFUTED for exact fits (both directions); proved for every other placement, exact and binary64.

### C23 Padding is respected (partial)

*Modelled:* same, and the padding of `dom/planset.go`.
*How:* BinPackPad, and BinPackPadFloat in binary64.
*Outcome:* Room and clearances proved for all histories, exactly over the reals and in binary64 up to 2n+6 roundings for n requests; that the Rotated flag tells which orientation was reserved is REFUTED (C23_flag_refuted).

### C24 Insert succeeds exactly when some free rectangle is large enough (proved)

*Modelled:* same.
*How:* completeness by induction over the tree.
*Outcome:* All reachable containers, exact arithmetic and binary64; containers made for one object (C24_single). Finding: a NaN-sized container recurses forever.

### C25 Every part ends up on exactly one sheet (proved)

*Modelled:* `dom/planset.go` in PlanSet.v.
*How:* invariant over histories (PlanSetProofs).
*Outcome:* Each part once: exact arithmetic and binary64 (finite padded sizes). Stability and error cases: every float type. Oversized alone: exact arithmetic.

### C26 A rotated part is drawn inside its reserved rectangle (proved)

*Modelled:* `dom/svg_renderer.go` placement of a part.
*How:* affine identity; rounding of the printed numbers from C03.
*Outcome:* Including the rounding of the printed transform (at most 0.0005) and the reading of its text (C26_text); exact arithmetic otherwise.

### C27 Dotted put and get agree (partial)

*Modelled:* `dynmap/dynmap.go` put/get/remove in DynModel.v: an explicit heap of maps, so sharing is visible.
*How:* refinement to functions on paths of keys (DynProofs), separation of the maps reachable.
*Outcome:* REFUTED when the dotted key is also present literally (put hidden, remove incomplete) or below a map[string]string (C27_literal_refuted, C27_remove_refuted, C27_string_map_refuted); otherwise proved: put/get, frame, failure condition, remove, put-if-absent for nested maps without sharing; PutIfAbsentWithDot says that it put a value also when it could not (C27_if_absent_refuted); a map of texts is handed out as a new map of the same texts (C27_text_map); Remove returns what Get returns, whatever the maps are (C27_removed), but a text in a map of texts stays there (C27_remove_text_refuted)

### C28 Merging maps is right-biased and deep (partial)

*Modelled:* `Merge`, `Clone`.
*How:* as C27 (MergeProofs); decidable checker for the example heaps (DynCheck).
*Outcome:* REFUTED for slices (a clone shares them and the maps in them, C28_clone_shares_refuted) and below a map[string]string (C28_string_map_refuted); otherwise proved exactly: contents of the merge at every path, nothing shared, empty and self merge, clone, for nested maps with dot-free keys

### C29 Flattening and unflattening are inverse (proved)

*Modelled:* `Flatten`, `UnFlatten`.
*How:* as C27 (FlattenProofs); iteration order is a universally quantified permutation.
*Outcome:* flattening and unflattening nested maps with non-empty dot-free keys, any order of the entries; empty nested maps disappear, as stated; items of lists are flattened under their index (C29_lists)

### C30 Sorting maps by a key uses a consistent order (partial)

*Modelled:* `dynmap/sort.go` comparison.
*How:* strict weak order; sortedness of any result of a correct sort.
*Outcome:* REFUTED for booleans (C30_bool_refuted) and for fractional numbers (C30_float_refuted); otherwise proved: strict weak order and sorted results; numbers count as their whole parts (C30_fraction); sort.Sort itself is not modelled, only the comparison it is given

### C31 Parameter lookup always terminates (partial)

*Modelled:* `dom/param_lookup.go`, `dom/expression_eval.go` in ParamModel.v; the expression language (`gval`) is a parameter `Lang`.
*How:* fuel: enough fuel always exists, by a measure on the depth counter; divergence by a family of witnesses for every fuel.
*Outcome:* REFUTED for points given by names that refer to each other (C31_point_refuted), for functions applied to texts (C31_function_refuted), calls without arguments and components without parent panic (C31_panic_refuted); otherwise proved: lookup, attribute lookup, strings, expressions without functions or with functions of scalars end, dollar signs do not count (C31_dollars), and apart from sqrt without arguments nothing ends with an error or a panic (C31_quiet); the expression parser is abstract

### C32 Inner definitions shadow outer ones (partial)

*Modelled:* same.
*How:* scope chain specification, induction over the chain.
*Outcome:* REFUTED when a defined text happens to be the name of an outer parameter (C32_capture_refuted), for cyclic definitions (C32_cycle_refuted) and for more than 20 indirections (C32_long_refuted): then an outer definition wins; otherwise proved: nearest definition wins, texts, undefined names, attributes and defaults, and where the parameters and the defaults of an element are (C32_params, C32_default_written)

### C33 Splitting a Bezier curve preserves the curve (partial)

*Modelled:* `SplitCurve`, `splitSection`, de Casteljau evaluation in Bezier.v.
*How:* polynomial identities over `RNum`.
*Outcome:* REFUTED at t=0 (SplitCurve(c,0) returns c at -s and four zero points); proved for every other t, for sections, and evaluation by de Casteljau = Bernstein

### C34 The curve bounding box contains the whole curve and is tight (proved)

*Modelled:* `BoundingBox` of a curve with `droots`, extrema.
*How:* calculus over R: critical points are roots of the derivative (BezierProofs).
*Outcome:* exact arithmetic, control points below 2^63 in absolute value

### C35 Bounding boxes of paths contain everything drawn (partial)

*Modelled:* `BoundingBoxTrimWhitespace`, `BoundingBoxWithWhitespace`.
*How:* induction over segments using C34 (GeomProofs).
*Outcome:* every drawn point passes PointInBoundingBox with the box of the drawing, no point outside it does, and no smaller box does (C35_point_in_box); REFUTED for BoundingBoxWithWhitespace when the drawing has negative coordinates; BoundingBoxTrimWhitespace proved tight; the whitespace box contains drawings without negative coordinates

### C36 Bounding box overlap test is symmetric and exact (proved)

*Modelled:* `overlap` of boxes, discarding of pairs.
*How:* order reasoning.
*Outcome:* exact arithmetic

### C37 Line intersection finds the common point (partial)

*Modelled:* `LineIntersection`, `NewLineSegment...` intersection in SegOps.v.
*How:* algebra over `RNum` (LineGeom).
*Outcome:* REFUTED for nearly vertical lines (C37_steep_refuted): there the reported point is off one line; proved exact otherwise, failure only for parallel lines, boxes and order-independence proved; exact arithmetic

### C38 A point at distance d along a line is on the line at that distance (partial)

*Modelled:* `PointAtDistance`.
*How:* algebra with square roots.
*Outcome:* REFUTED for leftward lines (C38_leftward_refuted); the distance is right for all lines, the point lies on the segment for rightward, vertical and horizontal ones; exact arithmetic

### C39 Quadratic curves are converted without changing shape (partial)

*Modelled:* `QCurveTo`.
*How:* Bernstein identities.
*Outcome:* REFUTED unless the pen has equal coordinates (C39_shape_refuted: the Y control point is computed from the X coordinate); proved when they are equal; exact arithmetic

### C40 Parallel offsets are parallel at the requested distance (proved)

*Modelled:* `Parallel`, `Offset`, `OffsetTransform` in OffsetModel.v.
*How:* algebra; the whole transform by induction over the strokes, up to the decimals it keeps.
*Outcome:* exact arithmetic for Parallel and Offset; zero distance for every float type; a single line and the strokes of a polyline through the whole transform to the seven decimals it keeps; the choice of side by the size asked for (C40_size)

### C41 Horizontal slicing keeps only what is on the kept side (partial)

*Modelled:* `HorizontalSlice`, `sliceRemoved`.
*How:* invariant of the knife loop (SliceProofs).
*Outcome:* REFUTED for drawings left of the origin, without width, or with nearly flat lines (C41_left_refuted, C41_axis_refuted, C41_flat_refuted); proved for moves and lines otherwise (result within the precision of the kept side, low lines survive in order); curves that pass the height at most once are in C80_slice_below_partial, for others it is false (C80_twice_refuted); exact arithmetic

### C42 Splitting a segment at a point yields contiguous pieces with the same ends (partial)

*Modelled:* `Split`, `KnifeCut`.
*How:* structural induction (SplitProofs).
*Outcome:* REFUTED for the meeting point of a curve split at a point that carries no parameter (C42_meets_refuted); proved: one or two contiguous pieces of the same kind with the same ends for every segment, meeting at the point for moves, lines and curve points with their parameter; KnifeCut contiguous, complete, and terminating for lines

### C43 Automatic splitting only leaves unsplit what fits the material (partial)

*Modelled:* `dom/part_splitter.go` in PartSplit.v.
*How:* decision law, sizes of the pieces (PartSplitProofs).
*Outcome:* REFUTED for portrait sheets and for positive y_offset (C43_portrait_refuted, C43_offset_refuted); proved: a part that fits is never split (any path, any sheet), and on landscape sheets without positive offset every piece of a part of moves and lines fits; curves not covered for the second; the sizes kept with the parts are those of their drawings (C43_sizes); exact arithmetic

### C44 Unit conversions are inverse (proved)

*Modelled:* `dom/common.go` in UnitsModel.v.
*How:* field algebra; binary64 by relative error bounds (RelError, Flocq).
*Outcome:* round trip exact over the reals and within two parts in 2^52 in binary64; unit names characterised

### C45 Errors logged anywhere are seen at the top (partial)

*Modelled:* `util/logging.go` in LogModel.v.
*How:* tree of logs, histories of calls.
*Outcome:* REFUTED beyond one level (C45_depth_refuted); proved exactly: HasErrors iff an error was logged on the log or a direct child, and the messages kept; and a message of level fatal does not count as an error (C45_fatal_refuted)

### C46 Removing duplicates keeps exactly one of each, in order (proved)

*Modelled:* duplicate removal of `path/util.go`.
*How:* list induction (UtilProofs).
*Outcome:* Strings and floats.

### C47 SVG transform attributes are applied (partial)

*Modelled:* `parser/svgparser.go` transforms in SvgElement.v.
*How:* refutation: for every element.
*Outcome:* REFUTED: every transform attribute of every element is ignored (C47_ignored_refuted), because the pattern is matched against a constant text

### C48 Chains of transforms run in order and stop at the first error (proved)

*Modelled:* `path/transforms.go`.
*How:* fold law.
*Outcome:* For any list of transforms.

### C49 Parts on one sheet never overlap and keep their padding (partial)

*Modelled:* C20-C26 together.
*How:* composition of their invariants.
*Outcome:* Clearances proved for the reserved orientation, over the reals and in binary64 up to 2n+6 roundings for n parts; REFUTED for the drawn one when a part fills a free rectangle exactly (C49_overlap_refuted).

### C50 RotateScale fits a drawing between two points (proved)

*Modelled:* `RotateScaleTransform`.
*How:* affine maps, `Ratan2_spec`.
*Outcome:* exact arithmetic

### C51 SVG shapes become their outlines (partial)

*Modelled:* `parser/svgparser.go` `ElementToPath` on an abstract element tree.
*How:* induction over the tree.
*Outcome:* REFUTED: elements of other kinds without children, e.g. ellipse or title, crash the reader (C51_panic_refuted); otherwise proved: line, rect, circle, path, group, unsupported shapes reported, no crash if every other element has a child; the XML decoder is not modelled

### C52 Circles are round (proved)

*Modelled:* `Draw.Circle`.
*How:* bound of the radius of the cubic arcs by algebra.
*Outcome:* exact arithmetic

### C53 Smooth curves continue the previous curve (proved)

*Modelled:* `SmoothCurveTo`.
*How:* equational.
*Outcome:* exact arithmetic

### C54 Rounded corners are round and touch both legs (partial)

*Modelled:* `RoundedCornerTo`.
*How:* equational, bound of the radius as C52.
*Outcome:* REFUTED for slanted second legs (C54_slanted_refuted); proved for axis-parallel corners in exact arithmetic

### C55 Reordering continues where the pen is (proved)

*Modelled:* `ReorderTransform` selection.
*How:* minimality invariant of the selection loop.
*Outcome:* exact arithmetic; before the final de-duplication, which C08 and C10 cover

### C56 Where a curve meets a line (partial)

*Modelled:* `Roots`, `polyRoots`, `cubicRoots`, `Align`.
*How:* Cardano over R, both directions (RootsProofs; `RBMath` gives acos, cube root).
*Outcome:* proved in exact arithmetic, both directions, for coefficients that are zero or above the tolerance; REFUTED below the tolerance (C56_flat_refuted) and for curves along the line (C56_along_refuted)

### C57 A curve crosses a stretch of line whichever way the line is drawn (partial)

*Modelled:* `IntersectsLine`, `between`.
*How:* C56 and boxes.
*Outcome:* REFUTED for lines drawn towards smaller Y (C57_downward_refuted); proved for the others in exact arithmetic

### C58 Path text is read as the commands it spells (partial)

*Modelled:* `ParsePathFromSvg` on all texts of a grammar (SvgText.v).
*How:* the two regular-expression rewrites are followed character by character.
*Outcome:* REFUTED for Z, which draws nothing (C58_close_refuted), and for a negative number directly after the letter (C58_minus_refuted); proved for all lists of commands M m L l C c S s Z otherwise

### C59 Gears have the right number of identical teeth (proved)

*Modelled:* `components/gear.go` in Components.v.
*How:* involute as a specification; equality of the 16 points of a tooth, rotation by addition theorems.
*Outcome:* exact arithmetic; the valley between two teeth misses closing by the difference of 3.142 and pi, which C59_seam bounds

### C60 Repeating fills the room with as many copies as fit (partial)

*Modelled:* `dom/repeat_component.go`.
*How:* grid of displaced copies, largest number of copies from `floor`.
*Outcome:* proved in exact arithmetic for children that start at the origin and draw nothing left of or above it; REFUTED for children reaching to the left (C60_left_refuted)

### C61 Edges run from their start to their end (partial)

*Modelled:* `components/basic_edge.go`, `components/repeat_edge.go`.
*How:* rigid motions composed from C14, C17; joins of paths (CompProofs).
*Outcome:* proved in exact arithmetic for both components; REFUTED for edges without room, which are drawn too long instead of reported (C61_no_room_refuted)

### C62 Copies around a circle form a closed ring (partial)

*Modelled:* `components/around.go`.
*How:* rigid motions; trigonometry of the regular polygon; exact reading back of decimals.
*Outcome:* proved in exact arithmetic for centres with at most the document's number of decimals; REFUTED for other centres (C62_centre_refuted), for around__index, which is always 0 (C62_index_refuted), and for negative numbers of copies (C62_negative_refuted)

### C63 A shape drawn up to a point reaches it (partial)

*Modelled:* `dom/draw_component.go` svg_connect_to and svg_scale_to.
*How:* affine maps; adding a connected path to a drawing; exact form of a reversed path.
*Outcome:* proved in exact arithmetic for svg_connect_to, and for svg_scale_to if the shape runs the way asked for; REFUTED for svg_scale_to with other runs (C63_backwards_refuted, C63_level_refuted), for reversed shapes not starting at the origin (C63_reversed_refuted) and for the pen after them (C63_pen_refuted)

### C64 The intercepts of an outline at a height (partial)

*Modelled:* `HorizontalIntercepts` in Components.v.
*How:* C37 for lines, C56 and C57 for curves; stable sort is a sorted permutation; parity of crossings of a closed chain.
*Outcome:* proved in exact arithmetic for outlines of lines and curves right of the origin that are clear of the tolerances; REFUTED for outlines reaching left of the origin (C64_left_refuted) and for heights of corners, where crossings are returned twice (C64_corner_refuted)

### C65 A lathe cuts one layer per thickness (partial)

*Modelled:* `dom/lathe_part_transformer.go` in Components.v.
*How:* steps counted by the archimedean property; C64.
*Outcome:* proved in exact arithmetic what the layers are, and that every step is a layer for silhouettes whose corners are missed by the steps; REFUTED for corners at a step, where a layer is lost (C65_corner_refuted), for outlines below the top of the page (C65_top_refuted) and for notched outlines (C65_notch_refuted)

### C66 An outline is filled with rows (partial)

*Modelled:* `components/xintercept.go` in Components.v.
*How:* pairs of intercepts, rows by induction; C64; the inductive relation `laid` describes rows of different heights.
*Outcome:* proved in exact arithmetic for repeatables of any height and a positive spacing (C66_any_height) and, with equal rows, for a fixed height (C66_rows_partial); REFUTED for pieces of different heights in one row, where rows overlap because only the last piece of the row counts (C66_overlap_refuted), for errors, which are not reported (C66_error_refuted, C66_component_error_refuted), and for negative spacings, where rendering does not end (C66_endless_refuted)

### C67 A part is what its children draw, measured (partial)

*Modelled:* `dom/part.go` in Components.v.
*How:* the loop that drops moves by induction; C15 and the exact box.
*Outcome:* proved in exact arithmetic, all coordinates below 2^62; REFUTED for connectedness: of several moves in a row the last is kept as it is and does not start where the drawing stopped (C67_gap_refuted)

### C68 A group draws its children one after the other (partial)

*Modelled:* `dom/group_component.go`, `dom/models.go` in Components.v.
*How:* `inTurn` gives the cursor of each child; joining by JoinPaths_spec.
*Outcome:* proved for drawing (exact arithmetic) and errors (every arithmetic); REFUTED for a group without children and for a child that draws nothing, which stop the program (C68_empty_refuted, C68_blank_refuted)

### C69 Named attributes of a path (partial)

*Modelled:* `path/attributes.go` in AttrText.v and GeomTransforms.v.
*How:* the texts one by one, then the exact box (C14, C67); decimal texts by TextProofs.v.
*Outcome:* proved in exact arithmetic for paths with coordinates below 2^62, and that a number is never taken for a point (C69_as_point); REFUTED for $CURSOR, which is accepted and has no value (C69_cursor_refuted), for the coordinates of the ends, which give the whole point (C69_end_field_refuted), and for the coordinates of the box, which ToPathAttr refuses (C69_box_field_refuted)

### C70 The draw component carries out its commands in order (proved)

*Modelled:* `dom/draw_component.go` in DrawComp.v.
*How:* every command extends what is drawn; svg text by C58, up to a point by C63.
*Outcome:* connectedness, errors and totality for every arithmetic; the strokes in exact arithmetic, svg text starting with an absolute move; svg text drawn up to a point as in C63 (C70_svg_connect, C70_svg_scale)

### C71 Transforms are made from their type and attributes (partial)

*Modelled:* `dom/transform_factories.go`, the transform part of `dom/app_context.go` and `dom/models.go` HandleTransforms in Factories.v.
*How:* the effect of each type as an affine map, by C14 to C19 and C50; handles by C69; cleanup by C07, slice by C80.
*Outcome:* proved: what is made and in which order for every arithmetic, the effect on the drawing in exact arithmetic (slice as in C80, the size of an offset for single strokes); REFUTED for reorder, which has a factory and is an unknown type (C71_reorder_refuted), and for handles, axes and sizes that are not understood, which are silently replaced by the default (C71_unchecked_refuted, C71_misspelt_refuted)

### C72 Documents that refer to files and import others (partial)

*Modelled:* `dom/app_context.go` ParseDocument and populateElementsByID, `dom/document.go` AllElements, merging and reading of maps in Docs.v (trees).
*How:* values by path through merged maps; the elements of a document as what is below its parts.
*Outcome:* proved for every document whose chain of files ends and whose maps have distinct keys; REFUTED for documents that refer to themselves or import themselves, which are parsed forever (C72_endless_refuted), for two elements with one custom type, where the order of a map decides (C72_order_refuted), for equal ids, which hide a custom component (C72_same_id_refuted), and for malformed lists and unknown kinds of import, which are silently ignored (C72_malformed_refuted): one stray value among the parts and the document has none (C72_stray_refuted); C72_lists says which lists count; keys with dots are merged literally in the model

### C73 Components are made from their types (partial)

*Modelled:* `dom/app_context.go` MakeComponent, `dom/document.go` CreateCustomComponent and the factories of all components in Docs.v.
*How:* what a component is made of as a relation between definitions; induction on it and on the fuel.
*Outcome:* proved for every definition; REFUTED for the map of a component with a repeat inside, whose child stays custom and is an error, another component or an endless recursion elsewhere (C73_repeat_refuted), and for custom components with the name of a factory, which are never used (C73_name_refuted)

### C74 Elements and parts are found by id (partial)

*Modelled:* `dom/document.go` FindElementByID and FindPartByID in Docs.v.
*How:* the elements of a document as in C72; what trimming does from both ends.
*Outcome:* proved for every element with an id that no other has and that neither starts nor ends with @; REFUTED for ids that start or end with @, which are never found (C74_at_refuted), and for the uses of a custom component with an id and components written alike, which share an id so that only one is found (C74_same_refuted)

### C75 Comments are left out of a document and nothing else is (partial)

*Modelled:* `dynmap/dynmap.go` the expression that ParseJSON removes in Comments.v.
*How:* a text as a list of letters, literals and comments; induction over it.
*Outcome:* proved for every text whose literals do not have the start of a comment inside; REFUTED for literals with // (C75_url_refuted) or /* (C75_hidden_refuted), of which the rest is lost, and for a comment on a last line without an end, which stays (C75_last_refuted); reading what is left is C96

### C76 Where two curves meet (partial)

*Modelled:* `bezier/bezier.go:355-423,612-638,773-846` in Bezier.v.
*How:* ReduceProofs.v: a section of a curve is the same cubic with another parameter, the reduction covers the curve with sections; the halving keeps them; tight boxes from C33; a Lipschitz bound for the end.
*Outcome:* proved over the reals: the reduction is a partition into simple sections (C76_pieces), what is reported is nearer than twice the threshold (C76_reported), and comes as a point of the first curve (C76_points), a crossing away from the cuts is found (C76_crossing, C76_found_partial) and the search ends (C76_ends); for two curves that bend one way and gently the reduction is never empty and their meetings away from the cuts are found (C76_bends); REFUTED: two parallel lines are reported to meet (C76_reported_refuted), two lines that cross in their middles are never found (C76_crossing_refuted), and a curve with a handle on its end is given up so that nothing it meets is found (C76_handle_refuted)

### C77 The text that is written is an SVG document (partial)

*Modelled:* `dom/svg_renderer.go:45-75,85-161,178-207,254-256` in SvgWrite.v; XML reader as specification in XmlSpec.v.
*How:* the reader is a machine over characters; a run over a concatenation is the composition of runs, each written line moves the machine by one child.
*Outcome:* proved: when the ids and labels have no special characters and every label has a place, an independent XML reader reads back exactly the expected tree (C77_document), with the size of the sheet in the given units (C77_sheet) and lines 0.3 mm wide (C77_stroke); REFUTED: a label for which no place is found makes the whole text unreadable (C77_unplaced_refuted), and ids and labels are not escaped (C77_escape_refuted)

### C78 The files that are written (partial)

*Modelled:* `main.go:212-239,270-334`, `util/file.go:36-48`, `dom/planset.go:114-124` in Output.v.
*How:* a text is cut at the last underscore in one way, numbers are read back from their digits; the disk is a map and the last write wins.
*Outcome:* proved: the file names (C78_name, C78_given, C78_sheet_name, C78_slash), that they are all different (C78_distinct), that every sheet is saved and nothing else is touched if no two designs have the same name (C78_saved), archives (C78_zip) and which files are designs (C78_files); REFUTED: designs of the same name in two directories overwrite each other (C78_same_refuted), and sheets of an earlier rendering stay (C78_stale_refuted)

### C79 Comparing rendered designs (partial)

*Modelled:* `main.go:114-134,139-206` in Output.v.
*How:* the name of a path is characterised by its texts, then case analysis of the search.
*Outcome:* proved: which differences and missing files are reported and when none are counted if names are unique (C79_reported, C79_count); REFUTED: missing and new files are not counted, even if all are missing (C79_missing_refuted), and files are compared by name only, so that a directory can differ from itself (C79_place_refuted), and a file that cannot be read counts as empty (C79_unreadable_refuted)

### C80 Cutting a curve with a line (partial)

*Modelled:* `path/util.go:13-38`, `bezier/bezier.go:454-544,584-601`, `path/segment_operators.go:404-450,591-604`, `transforms/slice.go:15-96`.
*How:* the roots of a section are those of the curve, moved, in the same order (KnifeProofs.v), so the first root found for both halves is the cut itself; intermediate value theorem for one crossing.
*Outcome:* proved: a curve is cut at most once (C80_at_most_once) and one that crosses the line once, within reach, is cut there into halves that do not cross it (C80_one_crossing), and slicing a path of lines and such curves keeps nothing above the height (C80_slice_below_partial); REFUTED: every curve that crosses the line and comes back keeps a piece that crosses it (C80_twice_refuted), because the first crossing of both halves is the cut itself; slicing in float64 keeps points above the height (C80_slice_refuted)

### C81 A map written as a URL query reads back (partial)

*Modelled:* `dynmap/dynmap.go:173-239,640-665`, `dynmap/typecast.go:124-133,168-198`.
*How:* Url.v; enumeration of the leaves in the order of the loops, then the map built by PutWithDot from FlattenProofs; url.Values.Encode and ParseQuery are taken to be inverse to each other and fmt.Sprint is a parameter.
*Outcome:* proved: for nested maps without slices, empty parts, dots or brackets in keys, the query holds one field per value (C81_fields) and read in any order gives the text of every value at its path, and nothing else, in a map of its own (C81_round_trip); REFUTED: a slice comes back with one element more, the text of the whole slice (C81_slice_refuted); empty maps are dropped and keys with brackets read at other paths (C81_keys_refuted); of two spellings of one parameter the kept one depends on the order (C81_order_refuted); a value below another is lost without an error (C81_conflict_refuted)

### C82 An SVG file is read as the document it is (partial)

*Modelled:* `parser/svgparser.go:25-32,237-344`.
*How:* SvgDecode.v on the tokens of the decoder; the tokens of a document are an inductive relation with arbitrary blanks and comments; induction on it with the rest of the input.
*Outcome:* proved: every file, as the tokens of Go's XML decoder, is read as its document (C82_tree), files that break off inside it are an error of Parse, and Compare is exact (C82_compare); REFUTED: ParseSVG overwrites that error and stops the program with a nil pointer for every file that breaks off (C82_broken_refuted) and for files without an element (C82_empty_refuted); Go's XML decoder is not modelled

### C83 A sheet that was written can be imported again (partial)

*Modelled:* `dom/svg_renderer.go:85-207`, `parser/svgparser.go:25-246`, `path/path_parser.go`, `transforms/join.go:163-183`.
*How:* composition of C77 (the text is this tree), C82 (the tree is read), C02 (the outlines are parsed) and C13/C51 (the paths are joined).
*Outcome:* proved in binary64: importing a sheet without labels draws the outline of every part in order, rounded to the decimals of the file (C83_outlines); REFUTED: the places of the parts are lost, sheets that differ only in them are imported alike (C83_place_refuted), and a sheet with any label stops the program (C83_label_refuted); that the decoder gives the tokens of the text is a hypothesis (fileOf)

### C84 What is written for a design are its parts, each once (partial)

*Modelled:* `dom/planset.go:30-102`, `dom/svg_renderer.go:85-252`, `main.go:66-77,315-334`.
*How:* Deliver.v composes PlanSet.v, SvgWrite.v and Output.v; what a document shows is read off its tree at any depth; composition of C25, C77 and C78.
*Outcome:* proved for every float type with the laws of the packer, so in binary64 and exactly, for parts of positive size with plain ids and labels that have a place: the files hold documents with the outlines and labels of the parts, each as often as given, and no other file is touched (C84_written, C84_written_exact); REFUTED: one part without area and nothing is written (C84_flat_refuted); other ids and labels see C77

### C85 A request sets the parameters it names and gets the sheet it asks for (partial)

*Modelled:* `main.go:241-268,336-368`.
*How:* Request.v on the maps of DynModel.v and the queries of Url.v; composition of C28 (copy, then merge) and of the reading of queries, here for all forms whose fields do not contain one another.
*Outcome:* proved: which parameters a design has with a request, for any nested maps (C85_params) and for the fields of a query (C85_request), and that the body is the sheet asked for (C85_answer), by default the first (C85_default); REFUTED: a number without a sheet panics (C85_index_refuted), the name to save under is ignored and files are written next to the design (C85_save_refuted), the type of the answer is set too late (C85_type_refuted), and the number of the sheet replaces a parameter called index (C85_names_refuted); a design that cannot be rendered gets an empty answer (C85_silent_refuted)

### C86 Numbers and lists are read from a map as they were put in (partial)

*Modelled:* `dynmap/typecast.go:30-122`, `dynmap/dynmap.go:287-301,391-402,456-588`.
*How:* DynRead.v with the syntax of strconv.ParseInt at base 0 (prefixes, underscores, range); induction over the digits of the standard library, over texts and lists; C27 for dotted keys.
*Outcome:* proved: integers are read as the nearest binary64 numbers (C86_number_of_integer), texts of decimal numbers too (C86_number_of_text), with exponents (C86_exponent); the texts read as finite numbers are exactly those of the usual form (C86_numeral), and exactly seven words as infinities and NaN (C86_words), decimal texts with any blanks (C86_int_text), the other bases, signs and groups of figures (C86_bases, C86_underscores), flags (C86_flags), values of other kinds (C86_kinds, C86_put_nothing), lists of texts and integers that are split (C86_text_list, C86_int_list), lists read whole or not at all (C86_all), items added at plain and dotted keys (C86_add, C86_add_read, C86_add_dots, C86_add_dots_new) and whole maps put in (C86_put_all); REFUTED: texts with a leading zero are octal integers but decimal floats (C86_octal_refuted), integers out of range become others when they are not texts (C86_wraps_refuted), the empty list is read as one empty text (C86_empty_refuted), adding to what is not a list is no error (C86_dropped_refuted, C86_below_refuted), and adding at a dotted key makes a second list that hides the first (C86_hidden_refuted)

### C87 Points and flags are read from attributes as they are written (partial)

*Modelled:* `dom/param_lookup.go:109-218,252-284`, `dynmap/typecast.go:29-46,148-166`.
*How:* AttrRead.v on top of ParamModel.v; texts as lists of characters, one specification for the words of a flag.
*Outcome:* proved for every expression language: both forms of points, the cursor, other texts, angle and length, flags, truth values and defaults; REFUTED: a flag written t is lost when the document has a parameter t (C87_flag_refuted), and a point with angle and length is not found when the attribute names a parameter that holds it (C87_polar_refuted); recursion depths are explicit; exact float operations are those of the code

### C88 Variables that components set are found where they should be (partial)

*Modelled:* `dom/models.go:110-120,177-187`, `dom/document.go:50-65`, `dom/part.go:69-75`.
*How:* Vars.v on the heap of DynModel.v and the lookup of ParamModel.v; what an element defines is the specification of C32.
*Outcome:* proved: local and document variables are found below and in the whole document, other names stay; REFUTED: an entry of the component's own params hides the variable it sets and a parameter of the document hides the document variable (C88_hidden_refuted); a component in a part that is not directly in the document, or without a document, fails with a panic when it sets a document variable (C88_nested_refuted, C88_loose_refuted); a variable whose name goes through a value that is no map is dropped (C88_dropped_refuted)

### C89 Listing and clearing the files of a directory (partial)

*Modelled:* `util/file.go:11-85`.
*How:* Files.v: a directory tree as a list of named nodes, walked in the order of filepath.Walk; errors of the file system are left out.
*Outcome:* proved: files listed exactly and once, the relative list and clearing, for directory names that are already clean; for any other directory name the paths lead to the files in it and are tidy (C89_place, C89_tidy); REFUTED: the list of directories holds files and no directory (C89_directories_refuted); './designs' is not stripped and '.' strips the dot of hidden files (C89_relative_refuted); an ending without its dot also matches files that have no extension (C89_ending_refuted)

### C90 Where a curve crosses itself (partial)

*Modelled:* `bezier/bezier.go:553-575`, `bezier/bezier.go:789-846`, `bezier/bezier.go:617-638`.
*How:* SelfModel.v on Bezier.v; ReduceCuts.v shows that every level or upright place of a curve is a cut, LoopCurve.v works out a family of curves with a loop.
*Outcome:* proved: reported parameters belong to close points with a whole piece between them, crossings of curves that are not given up are found unless the search cuts the curve exactly at one of the two parameters, the search ends; REFUTED: a narrow loop of any size is given up and its crossing is not found, with any threshold (C90_narrow_refuted)

### C91 A curve moved to the side (partial)

*Modelled:* `path/segment_operators.go:452-507`, `path/segment_operators.go:606-614`, `bezier/bezier.go:894-1065`.
*How:* SegOps.v and Bezier.v; Prop_C91.v shows that a simple piece of a bent curve has its normals meeting in one point, about which the piece is moved; Bends.v follows the direction of a curve as an angle and shows that the search for simple pieces succeeds.
*Outcome:* proved: a bent curve whose handles are apart from its ends becomes pieces that follow it from start to end, or nothing; it is never nothing when the curve bends one way, by less than fifteen degrees in a hundredth of its parameter (C91_bends); the pieces have no gaps and the direction of the curve where they meet; moving ends; REFUTED: a straight curve of any length is lost (C91_straight_refuted), so is a curve with a narrow bend (C91_narrow_refuted) and one that ends where it starts (C91_closed_refuted); a curve with a handle on its start is moved in a wrong direction there (C91_handle_refuted)

### C92 From the parts of a design to the sheets (partial)

*Modelled:* `dom/part.go:77-140`, `dom/planset.go:30-44`, `dom/planset.go:75-102`, `dom/app_context.go:188-195`, `dom/app_context.go:231-241`, `dom/part_transform_factories.go:7-27`, `parser/parser.go:42-46`.
*How:* RenderDoc.v puts Components.v, PartSplit.v and Deliver.v together; what the components draw, the label and the attributes of the part transformers are functions of part_index.
*Outcome:* proved for every design: the sheets have exactly what the parts render to (in exact arithmetic: each copy as drawn, measured and labelled), labels differ, and a failing part or an unknown part transformer writes nothing; REFUTED: every piece cut by a splitter loses its label (C92_split_label_refuted), part transformers see the number of the last copy for all copies (C92_index_refuted), and the copies on a sheet share one id (C92_ids_refuted)

### C93 The nearest point of a curve (partial)

*Modelled:* `bezier/bezier.go:655-687`, `bezier/bezier.go:323-349`.
*How:* Project in Bezier.v; closeness of two points of the curve from the closeness of their parameters, and the hundred and twenty-one points that are compared.
*Outcome:* proved in exact arithmetic for every finite curve within 2^63 of the origin: the search ends after at most 22 rounds, returns a point of the curve, with its parameter unless an end is found, and a distance not above the true one; for the origin the answer is the nearest point up to sqrt 2 / 66 of the longest leg; REFUTED: the first search never looks at the point that is asked about, so any two answers are within sqrt 2 * 4 / 66 of the longest leg (C93_blind) and a point of the curve itself gets an answer more than four away (C93_nearest_refuted), and distance and parameter are exchanged when an end is found (C93_exchanged_refuted)

### C94 The value of an expression (partial)

*Modelled:* `dom/expression_eval.go:11-184`, `dom/param_lookup.go:309-320`, `dom/param_lookup.go:441-467`.
*How:* evalExp in ParamModel.v and goNumeric in ExprFuncs.v; a big-step relation with the number of names replaced, shown equal to the evaluation with enough nested calls.
*Outcome:* proved for every document, every expression and any parser and operators of the library: a number is read exactly if the value is a number or an expression for one with at most 20 names replaced by expressions, and it is that number and no other (value, only, refused, unique), the same for parameters and attributes, for arithmetic of any size over numeric parameters, exactly for integers that binary64 has (integer, integer_arithmetic), and for the five functions of numbers, lists and points; REFUTED: the limit of 20 counts all names replaced in an expression and not how deep they are nested, so a sum of 21 uses of a parameter written as an expression is refused although it has a value (C94_limit_refuted)

### C95 A text is shortened to the length asked for (partial)

*Modelled:* `path/util.go:421-427`.
*How:* a relation between text and shortened text, shown equal to the function.
*Outcome:* proved in bytes for every length of three or more: the result is the shortened text and no other, and never longer than asked for; REFUTED: a text that does not fit into fewer than three bytes is a panic (C95_tiny_refuted), and a character of two bytes can be cut in half (C95_half_refuted)

### C96 A map written as JSON is read back (partial)

*Modelled:* `dynmap/dynmap.go:33-40`, `dynmap/dynmap.go:241-256`.
*How:* a relation of sameness between values that leaves the order of entries open, the table of well-formed bytes of the Unicode standard, and the number of a character; the writer and the reader of encoding/json are modelled byte by byte.
*Outcome:* proved for every map with finite numbers, texts of characters and each key once, of any size and nested up to the 10000 levels that the reader takes, over any numbers that are read as they are written: MarshalJSON and UnmarshalJSON give the same map (C96_marshal), ToJSON and ParseJSON too if no text contains the start of a comment (C96_round); whatever is read can be written and read again (C96_stable), the order of entries does not matter (C96_order), every text is read or refused (C96_ends), exactly the maps with NaN or infinities are not written (C96_refuse), the last of two entries with one key counts (C96_last), literals and escapes stand for their characters (C96_text, C96_unicode, C96_pair, C96_escapes), white space may be anywhere between the parts (C96_blank) and nothing else around the map (C96_nothing_else), what is written has no <, > and & and no control bytes (C96_tame), and maps in maps 10000 deep are read (C96_deep); REFUTED: deeper ones are written and not read (C96_deep_refuted), a text with // or /* in it is not read back, or something else is (C96_comment_refuted), nor are bytes that are no characters (C96_bytes_refuted), and null is read as a map that is nil (C96_null_refuted)

### C97 The id of an element is made of what it says (partial)

*Modelled:* `dom/app_context.go:168-176`, `dom/app_context.go:240-248`.
*How:* sameness of C96; md5 is any function.
*Outcome:* proved: a given id is kept (C97_given), as the text that is shown for it if it is none (C97_shown); the id does not depend on the order of entries (C97_order); elements with the same made id say the same unless md5 sums agree (C97_content), so for whatever is read (C97_parsed), and an element in a list of another never has its id (C97_parent); REFUTED: elements that say the same have the same id (C97_unique_refuted), and elements with numbers that are not finite, or different bytes that are no characters, share one whatever they say (C97_other_refuted)

### C98 The command line does what it says (partial)

*Modelled:* `main.go:23-137`, `main.go:139-149`, `main.go:212-239`, `util/file.go:11-23` in CommandLine.v.
*How:* the four ways to write a flag, the last value given and the words that are wrong are relations of their own; composition with C78 and C79; the library flag is modelled from its documentation.
*Outcome:* proved for every command line whose flags are known, written in any of the four ways and repeated at will: render saves the sheets of the design under the name given and nothing else (C98_render), so do render_all and designs_updated for a directory with designs of different names (C98_render_all, C98_updated, which also removes the old sheets), diff_test prints zero exactly when no old sheet differs from a new one of its name (C98_diff), wrong flags and commands change nothing (C98_wrong), and all lines but one end without a panic; REFUTED: render alone panics (C98_alone_refuted), flags after the name of a design are not read (C98_after_refuted), flags before it make a flag the name of the design (C98_before_refuted), render_all without a directory for the output renders nothing and reports no failure to the shell (C98_silent_refuted), diff_test into the directory to compare, or with one that cannot be listed, counts no differences (C98_same_refuted), it prints nothing and reports no failure when the designs cannot be listed (C98_nothing_refuted), and designs_updated then has removed the old sheets without new ones (C98_lost_refuted); file system calls other than listing and making directories do not fail in the model, and the server is not modelled

### C99 The questions asked of a map agree, and removed keys are gone (partial)

*Modelled:* `dynmap/dynmap.go:267-343`, `dynmap/dynmap.go:350-370`, `dynmap/dynmap.go:392-410`, `dynmap/dynmap.go:667-676`, `dynmap/dynmap.go:711-717` in DynAsk.v.
*How:* what is under a key is a relation of its own (`under`), shown to be what Get returns; the maps that RemoveAll leaves are described entry by entry.
*Outcome:* proved for every map, key, value and default: the questions answer from what is under the key (C99_there, C99_text, C99_else), and removing keys without dots leaves none of them and what is under every other key, also inside maps of texts and below other keys, as long as the map is not inside itself (C99_removed); REFUTED for dotted keys: one that is there under its whole name and along its parts is still there after RemoveAll (C99_removed_refuted); times are not modelled

### C100 Each type is made by the last factory registered for it (partial)

*Modelled:* `dom/app_context.go:55-127`, `dom/app_context.go:148-166`, `dom/app_context.go:187-204`, `parser/parser.go:16-55` in Registry.v.
*How:* the factory a type belongs to is described by `lastNaming` on the list given to Init; what a context can go through is the relation `later`.
*Outcome:* proved for all lists of factories, contexts and sequences of calls: C100_init, C100_added, C100_digits, and for the shipped lists C100_shipped, which also says that the types known are those of the models of components (Docs.v) and transforms (Factories.v); REFUTED in its last sentence: the factory of reorder is not registered (C100_reorder_refuted), and a component imported under the name of a registered type is never used (C100_shadowed_refuted)

### C101 Log messages keep their fields, and are printed once (partial)

*Modelled:* `util/logging.go:20-157`, `main.go:97`, `main.go:153`, `main.go:226` in LogFields.v, on the maps of DynModel.v; the time and the formatted text are inputs.
*How:* what a field reads is described by paths through the maps (`reads`, `leafMerge`); the lines printed by `lines`, a function of the calls made.
*Outcome:* proved for nested maps as JSON gives them (C101_fields, C101_as_map), for all sequences of calls (C101_printed, C101_messages, and C101_static for static fields that are not maps), and for logs with static fields also the last sentence (C101_apart); REFUTED in its last sentence for logs without static fields, whose messages keep the caller's own map (C101_shared_refuted); maps inside slices are shared also otherwise, see C28

## 3. Which code is modelled

Line ranges are those cited by the comments of the model.  Parts of a range that only log, copy or format messages are left out without mention; every other simplification is said in the comment of the definition.

| file | lines modelled | model |
|---|---|---|
| `bezier/bezier.go` (1065 lines) | 33-57, 66-77, 88-100, 105-142, 145-162, 165-185, 188-219, 222-229, 234-257, 267-319, 323-335, 338-443, 446-544, 553-575, 584-606, 617-642, 645-649, 655-712, 715-846, 857-903, 911-937, 959-1015, 1044-1053 | Bezier.v, SelfModel.v |
| `bezier/utils.go` (70 lines) | 9-13, 61-70 | Bezier.v |
| `binpacking/binpacking.go` (248 lines) | 12-24, 48-56, 60-65, 74-84, 88-95, 118-150, 157-248 | BinPack.v |
| `components/around.go` (120 lines) | 47-119 | Components.v |
| `components/basic_edge.go` (122 lines) | 21-40, 47-122 | Components.v, Docs.v |
| `components/gear.go` (133 lines) | 44-98, 108-121 | Components.v |
| `components/repeat_edge.go` (204 lines) | 30-66, 73-204 | Components.v, Docs.v, Registry.v |
| `components/xintercept.go` (125 lines) | 58-124 | Components.v |
| `dom/app_context.go` (387 lines) | 26-127, 148-250, 269-387 | Docs.v, Factories.v, Json.v, Registry.v, RenderDoc.v |
| `dom/common.go` (77 lines) | 9-37, 43-68, 71-77 | Docs.v, UnitsModel.v |
| `dom/document.go` (98 lines) | 17-47, 50-71, 74-86 | Docs.v, Vars.v |
| `dom/draw_component.go` (307 lines) | 19-28, 57-87, 92-307 | Components.v, Docs.v, DrawComp.v |
| `dom/expression_eval.go` (184 lines) | 19-54, 60-184 | ExprFuncs.v, ParamModel.v |
| `dom/group_component.go` (67 lines) | 17-36, 46-67 | Components.v, Docs.v |
| `dom/lathe_part_transformer.go` (116 lines) | 14-116 | Components.v, RenderDoc.v |
| `dom/models.go` (295 lines) | 70-77, 91-96, 110-120, 139-149, 163-168, 177-187, 226-247 | Components.v, Docs.v, Factories.v, ParamModel.v, Vars.v |
| `dom/param_lookup.go` (485 lines) | 14-17, 20, 59-100, 109-130, 133-246, 252-320, 346-416, 441-467 | AttrRead.v, Factories.v, ParamModel.v |
| `dom/part.go` (197 lines) | 13-29, 38-61, 64-66, 69-197 | Components.v, Docs.v, Registry.v, RenderDoc.v, SvgWrite.v, Vars.v |
| `dom/part_splitter.go` (248 lines) | 15-248 | PartSplit.v, RenderDoc.v |
| `dom/part_transform_factories.go` (27 lines) | 14-16, 25-27 | Registry.v |
| `dom/planset.go` (126 lines) | 30-44, 50-102, 114-124 | Deliver.v, Output.v, PlanSet.v, RenderDoc.v, SvgWrite.v |
| `dom/render_context.go` (20 lines) | none | - |
| `dom/repeat_component.go` (119 lines) | 20-38, 45-105 | Components.v, Docs.v |
| `dom/svg_renderer.go` (264 lines) | 36-42, 45-75, 85-131, 135-161, 178-198, 201-207, 211-256 | Deliver.v, PlanSet.v, SvgWrite.v |
| `dom/transform_factories.go` (321 lines) | 34-44, 49-66, 71-81, 86-93, 98-110, 115-144, 149-167, 172-181, 187-201, 207-231, 237-253, 259-272, 278-321 | Factories.v, Registry.v |
| `dynmap/dynmap.go` (753 lines) | 16-18, 33-40, 82-111, 115-124, 152-167, 173-184, 200-213, 216-256, 262-264, 267-277, 287-333, 340-343, 350-370, 391-410, 415-588, 594-601, 618-630, 640-665, 672-676, 679-717, 725-753 | Comments.v, Docs.v, DynAsk.v, DynModel.v, DynRead.v, Json.v, LogFields.v, ParamModel.v, Request.v, SvgElement.v, Url.v |
| `dynmap/sort.go` (130 lines) | 42-65, 68-89, 101-130 | DynModel.v |
| `dynmap/typecast.go` (238 lines) | 29-133, 148-198, 203-216 | AttrRead.v, AttrText.v, Docs.v, DynModel.v, DynRead.v, ParamModel.v, Request.v, SvgElement.v, SvgParse.v, Url.v |
| `main.go` (368 lines) | 23-206, 212-368 | CommandLine.v, Deliver.v, LogFields.v, Output.v, RenderDoc.v, Request.v |
| `parser/parser.go` (68 lines) | 16-55 | Docs.v, Factories.v, Registry.v, RenderDoc.v |
| `parser/svgparser.go` (344 lines) | 25-32, 36-126, 237-246, 249-269, 272-289, 292-326, 329-344 | SvgDecode.v, SvgElement.v |
| `path/attributes.go` (198 lines) | 13-62, 65-198 | AttrText.v, Components.v, GeomTransforms.v |
| `path/draw.go` (281 lines) | 13-19, 26-281 | DrawComp.v, DrawModel.v |
| `path/path.go` (404 lines) | 12, 15-53, 62-87, 91-150, 162-181, 192-196, 199-224, 228-254, 257-283, 296-326, 337-347, 368-370, 378-380, 384-393 | DrawModel.v, Factories.v, GeomTransforms.v, Num.v, PathModel.v, Registry.v, SegOps.v |
| `path/path_parser.go` (180 lines) | 37-180 | SvgParse.v |
| `path/segment_operators.go` (614 lines) | 28-42, 58-93, 103-131, 134-513, 543-614 | Bezier.v, PathModel.v, SegOps.v |
| `path/transforms.go` (28 lines) | 18-28 | PathModel.v |
| `path/util.go` (435 lines) | 13-38, 42-76, 79-101, 104-138, 141-146, 150-155, 165-181, 184-192, 195-203, 206-217, 220-223, 227-231, 235-260, 264-267, 271-301, 305-315, 318-328, 331-345, 351-364, 370-377, 380-388, 392-408, 411-418, 421-435 | Components.v, DrawModel.v, GeomTransforms.v, Num.v, PathModel.v, SegOps.v |
| `transforms/cleanup.go` (71 lines) | 19-71 | TransformsModel.v |
| `transforms/dedup.go` (73 lines) | 11-51, 59-73 | TransformsModel.v |
| `transforms/join.go` (183 lines) | 21-158, 163-183 | TransformsModel.v |
| `transforms/matrix.go` (30 lines) | 12-30 | GeomTransforms.v |
| `transforms/mirror.go` (77 lines) | 21-77 | GeomTransforms.v |
| `transforms/move.go` (33 lines) | 16-33 | GeomTransforms.v |
| `transforms/offset.go` (132 lines) | 7-13, 24-126 | OffsetModel.v |
| `transforms/path_reorder.go` (89 lines) | 13-64, 68-89 | TransformsModel.v |
| `transforms/rebuild.go` (16 lines) | 13-16 | SvgParse.v |
| `transforms/reverse.go` (60 lines) | 42-60 | TransformsModel.v |
| `transforms/rotate.go` (59 lines) | 13-59 | GeomTransforms.v |
| `transforms/rotate_scale.go` (88 lines) | 15-88 | GeomTransforms.v |
| `transforms/scale.go` (83 lines) | 22-83 | GeomTransforms.v |
| `transforms/shift.go` (25 lines) | 12-25 | GeomTransforms.v |
| `transforms/slice.go` (96 lines) | 15-96 | TransformsModel.v |
| `transforms/trim_whitespace.go` (24 lines) | 12-24 | GeomTransforms.v |
| `util/file.go` (85 lines) | 11-23, 33-46, 54-69, 72-85 | CommandLine.v, Files.v, Output.v |
| `util/logging.go` (157 lines) | 11-47, 52-75, 79-114, 137-157 | LogFields.v, LogModel.v |

Not modelled: HTTP serving (rest of `main.go`), reading of XML, the parser and operators of expressions (third-party `govaluate`, parameters of the model),
log output, performance.

## 4. Trusted base

* The Coq 8.16.1 kernel, including `vm_compute`; `coqchk` accepts the compiled library.
* Axioms, all from the standard library, reported by `Print Assumptions`:
  `ClassicalDedekindReals.sig_forall_dec`, `ClassicalDedekindReals.sig_not_dec`, `FunctionalExtensionality.functional_extensionality_dep` (the real numbers) and
  `Classical_Prop.classic` (real analysis and Flocq).  Theorems for every `Num` or about `FNum` alone mostly need none.
* Flocq 4.1.0 is used as a library of theorems about rounding; it adds no axioms.
* The fidelity of the model to the Go text, by reading only; the semantics of Go's standard library functions as documented (`strconv.ParseFloat`, `fmt.Sprintf`, `math`, `regexp` for the four patterns used, `sort`).
* `RTrig` and the other real instances idealise: results about `RNum` do not bound rounding errors of the compiled program.
