{"id": "C01", "title": "Drawing operations always leave a contiguous path", "statement": "Starting from NewDraw(), after any sequence of drawing calls (MoveTo, RelMoveTo, LineTo, RelLineTo, HLineTo, VLineTo, RelHLineTo, RelVLineTo, CurveTo, RelCurveTo, SmoothCurveTo, RelSmoothCurveTo, QCurveTo, RelQCurveTo, Rect, Circle, LineByAngle, RoundedCornerTo, AddSegment(s)), every segment of the resulting path starts at the point where the previous one ended and the first one starts at the origin; the calls only ever append, so segments produced earlier are never altered.", "quantifier": "for every finite sequence of drawing calls with arbitrary float arguments (including NaN, infinities and -0)", "why_tests_cant": "tests draw a handful of fixed shapes; the claim is about every call sequence and every float64 argument, including the ones that compare unequal to themselves.", "anchors": [{"file": "path/draw.go", "symbols": ["Draw", "AddSegment", "MoveTo", "LineTo", "CurveTo", "SmoothCurveTo", "QCurveTo", "Rect", "Circle", "RoundedCornerTo", "LineByAngle"]}, {"file": "path/path.go", "symbols": ["SetSegmentStart", "NewLineSegmentAngle"]}]}
{"id": "C02", "title": "SVG text of a path parses back to the same drawing", "statement": "For every path built of move/line/curve segments with finite coordinates, ParsePathFromSvg(SvgString(p, n)) succeeds and yields a path with the same number and kinds of segments in the same order, whose end and control points are exactly the decimal numbers printed; printing the parsed path again with n decimals gives the same text.", "quantifier": "for all paths, all segment lists, all finite coordinates (any sign and magnitude), all decimal counts n >= 0", "why_tests_cant": "the parser is a pair of regex rewrites over text; any finite test set misses digit/sign/dot combinations at token boundaries.", "anchors": [{"file": "path/path.go", "symbols": ["SvgString", "MoveSegment.SvgString", "LineSegment.SvgString", "CurveSegment.SvgString", "precisionStr"]}, {"file": "path/path_parser.go", "symbols": ["ParsePathFromSvg", "next", "getNextFloats"]}, {"file": "transforms/rebuild.go", "symbols": ["RebuildTransform.PathTransform"]}]}
{"id": "C03", "title": "Equality to a number of decimals is an equivalence relation", "statement": "PrecisionEquals(a,b,n) with n>=0 is reflexive, symmetric and transitive on all float64 values (including NaN and infinities), and two values judged equal never differ by more than 10^-n; EqualsPrecision on points behaves likewise coordinate-wise.", "quantifier": "for all triples of float64 values and all n >= 0", "why_tests_cant": "transitivity is a statement about triples of floats near rounding boundaries; sampled tests never hit those ties.", "anchors": [{"file": "path/util.go", "symbols": ["PrecisionEquals", "PrecisionCompare"]}, {"file": "path/path.go", "symbols": ["Point.EqualsPrecision", "Point.StringPrecision"]}]}
{"id": "C04", "title": "Values closer than half an ulp of the last decimal around zero compare equal", "statement": "Two values that both round to zero at n decimals compare equal with PrecisionEquals(_,_,n), and PrecisionCompare is antisymmetric: compare(a,b) = -compare(b,a).", "quantifier": "for all pairs of float64 values and all n >= 0", "why_tests_cant": "the failing pairs are tiny values of opposite sign (printed as -0.000 and 0.000) and NaN; no existing test uses a negative value that rounds to zero.", "anchors": [{"file": "path/util.go", "symbols": ["PrecisionEquals", "PrecisionCompare"]}, {"file": "path/path.go", "symbols": ["Point.StringPrecision"]}]}
{"id": "C05", "title": "Path constructors and trimming keep exactly the drawn segments", "statement": "NewPathFromSegments, NewPathFromSegmentsWithoutMove, HeadMove, TrimMove, TrimTailMove and FixHeadMove never add, drop, reorder or alter a drawn (line/curve) segment; NewPathFromSegments of a non-empty list starts with a move whose start is the origin; TrimMove's result is empty or begins and ends with a drawn segment, and trimming twice is trimming once.", "quantifier": "for every list of segments", "why_tests_cant": "the statement quantifies over all segment lists (any pattern of leading, trailing and interior moves).", "anchors": [{"file": "path/path.go", "symbols": ["NewPathFromSegments", "NewPathFromSegmentsWithoutMove"]}, {"file": "path/util.go", "symbols": ["TrimMove", "TrimTailMove", "HeadMove", "FixHeadMove", "IsMove"]}]}
{"id": "C06", "title": "Splitting a path on moves loses nothing", "statement": "SplitPathOnMove returns sub-paths, each non-empty (has something drawn), starting with a move from the origin and containing moves only at the front; concatenating the drawn segments of the sub-paths gives exactly the drawn segments of the input, in order, for a contiguous path.", "quantifier": "for every contiguous path, any number and placement of moves", "why_tests_cant": "existing tests split one two-part path.", "anchors": [{"file": "path/util.go", "symbols": ["SplitPathOnMove", "IsEmptyPath"]}, {"file": "path/draw.go", "symbols": ["Draw.AddSegment"]}]}
{"id": "C07", "title": "Cleanup yields a well-formed path with the same drawing", "statement": "CleanupTransform returns a path whose first segment is a move from the origin, in which each segment starts exactly where the previous one ended, with no two moves in a row and no segment with a NaN end; its drawn segments are those of the input with non-NaN end, in order, changed at most by moving a start point that already agreed to the configured precision.", "quantifier": "for all paths (lists of segments in any order, any gaps) and all precisions", "why_tests_cant": "the gap patterns (exact, within precision, beyond precision, NaN) multiply with list positions; tests cover one instance.", "anchors": [{"file": "transforms/cleanup.go", "symbols": ["CleanupTransform.PathTransform"]}, {"file": "path/util.go", "symbols": ["FixHeadMove"]}]}
{"id": "C08", "title": "Dedup removes only redundant moves and back-and-forth pairs", "statement": "DedupSegmentsTransform never panics; every drawn segment in its output is one of the input's (up to precision alignment of the start), in the original order, and segments are only removed in adjacent pairs consisting of a segment and its reverse, or when they are moves.", "quantifier": "for all paths and all precisions", "why_tests_cant": "depends on arbitrary cancellation cascades (a stack discipline); tests have a few hand-made paths.", "anchors": [{"file": "transforms/dedup.go", "symbols": ["DedupSegmentsTransform.doTransform", "DedupSegmentsTransform.PathTransform"]}]}
{"id": "C09", "title": "Reversing a path reverses the drawing, and twice is the identity on it", "statement": "PathReverse on a contiguous path draws exactly the same strokes with each stroke flipped and in the opposite order, leaves the argument unchanged, and applying it twice gives back the original drawn segments.", "quantifier": "for every contiguous path", "why_tests_cant": "quantifies over all paths, including interior and trailing moves.", "anchors": [{"file": "transforms/reverse.go", "symbols": ["PathReverse.PathTransform", "SegmentReverse.SegmentTransform"]}, {"file": "path/segment_operators.go", "symbols": ["DefaultSegmentOperators.Reverse"]}]}
{"id": "C10", "title": "Reordering never loses a stroke", "statement": "Before its final de-duplication step, ReorderTransform's output draws the same strokes as its input: the sub-paths are permuted and possibly reversed but none is dropped, duplicated or altered.", "quantifier": "for all contiguous paths with any number of sub-paths", "why_tests_cant": "greedy selection with index bookkeeping over n sub-paths; tests use two or three.", "anchors": [{"file": "transforms/path_reorder.go", "symbols": ["ReorderTransform.doPath", "ReorderTransform.PathTransform"]}]}
{"id": "C11", "title": "Joining yields one contiguous stroke", "statement": "JoinTransform terminates and its result is a single move to the start followed by drawn segments, each starting where the previous ended (to the configured precision).", "quantifier": "for all paths and any number of disjoint pieces", "why_tests_cant": "recursion with reversal at every step; termination and contiguity are statements about all inputs.", "anchors": [{"file": "transforms/join.go", "symbols": ["JoinTransform.join", "JoinTransform.PathTransform"]}, {"file": "path/segment_operators.go", "symbols": ["DefaultSegmentOperators.Join", "JoinLines", "JoinCurves", "JoinLineAndCurve", "JoinCurveAndLine"]}]}
{"id": "C12", "title": "Closing a path makes the end meet the start", "statement": "With ClosePath set, the path produced by JoinTransform ends at the point where its first drawn segment starts.", "quantifier": "for all non-empty paths", "why_tests_cant": "the code's closing step relies on writes into a shared backing array and on the shape returned by Join; tests only compare one expected string.", "anchors": [{"file": "transforms/join.go", "symbols": ["JoinTransform.PathTransform"]}, {"file": "path/util.go", "symbols": ["TrimLast", "Tail"]}]}
{"id": "C13", "title": "Combining paths keeps every stroke visible", "statement": "SimpleJoin.JoinPaths(p1,...,pn) produces a path whose SVG rendering draws every stroke of every pi.", "quantifier": "for all lists of paths", "why_tests_cant": "whether a stroke survives depends on whether each later path begins with a move; tests only combine paths that do.", "anchors": [{"file": "transforms/join.go", "symbols": ["SimpleJoin.JoinPaths"]}, {"file": "parser/svgparser.go", "symbols": ["ParseSVG"]}, {"file": "dom/group_component.go", "symbols": ["GroupComponent.Render"]}]}
{"id": "C14", "title": "Translation transforms are rigid and exact", "statement": "ShiftTransform by (dx,dy) moves every point of every drawn segment by exactly (dx,dy); shifts compose additively and shift(-d) undoes shift(d); MoveTransform with a bounding-box handle puts that handle exactly on the requested point.", "quantifier": "for all paths, all offsets, all nine bounding-box handles (exact arithmetic)", "why_tests_cant": "algebraic law over all real coordinates.", "anchors": [{"file": "transforms/shift.go", "symbols": ["ShiftTransform.PathTransform"]}, {"file": "transforms/move.go", "symbols": ["MoveTransform.PathTransform"]}, {"file": "path/attributes.go", "symbols": ["PathAttribute", "PointPathAttribute"]}, {"file": "path/util.go", "symbols": ["BoundingBoxTrimWhitespace"]}]}
{"id": "C15", "title": "Trimming whitespace puts the drawing at the origin", "statement": "After TrimWhitespaceTransform the bounding box of the drawn segments has its top-left corner at (0,0) and unchanged width and height, and trimming again changes nothing.", "quantifier": "for all non-empty contiguous paths (exact arithmetic)", "why_tests_cant": "law over all coordinates, with arbitrary leading/trailing moves.", "anchors": [{"file": "transforms/trim_whitespace.go", "symbols": ["TrimWhitespaceTransform.PathTransform"]}, {"file": "path/util.go", "symbols": ["boundingBox", "BoundingBoxTrimWhitespace"]}]}
{"id": "C16", "title": "Scaling to a size reaches that size", "statement": "ScaleTransform with positive Width and Height makes the drawing's bounding box exactly Width x Height; with only one of them the aspect ratio is kept.", "quantifier": "for all paths with positive width and height, all positive requested sizes (exact arithmetic)", "why_tests_cant": "law over all coordinates and shapes, including curves whose extrema are interior.", "anchors": [{"file": "transforms/scale.go", "symbols": ["ScaleTransform.PathTransform"]}, {"file": "path/util.go", "symbols": ["BoundingBoxTrimWhitespace"]}]}
{"id": "C17", "title": "Rotation is a rigid motion about the chosen axis", "statement": "path.Rotate preserves distances, Rotate(a) after Rotate(b) is Rotate(a+b), a full turn is the identity, and RotateTransform leaves its axis point where it was while preserving all distances between points of the path.", "quantifier": "for all angles, paths and axis handles (exact arithmetic)", "why_tests_cant": "trigonometric identity for all angles.", "anchors": [{"file": "path/util.go", "symbols": ["Rotate"]}, {"file": "transforms/rotate.go", "symbols": ["RotateTransform.PathTransform"]}]}
{"id": "C18", "title": "Mirroring twice restores the drawing", "statement": "MirrorTransform (default handle) applied twice along the same axis gives back the original drawn segments, and once keeps the bounding box of the drawing in place.", "quantifier": "for all paths, both axes (exact arithmetic)", "why_tests_cant": "law over all paths; the reflection axis is computed from a bounding box that includes whitespace.", "anchors": [{"file": "transforms/mirror.go", "symbols": ["MirrorTransform.PathTransform"]}, {"file": "path/util.go", "symbols": ["BoundingBoxWithWhitespace"]}]}
{"id": "C19", "title": "Matrix transforms compose like SVG matrices", "statement": "MatrixTransform(a,b,c,d,e,f) sends (x,y) to (ax+cy+e, bx+dy+f) on all points; applying two in turn equals applying the product matrix; the identity matrix is the identity on drawn segments.", "quantifier": "for all matrices and paths (exact arithmetic)", "why_tests_cant": "algebraic law.", "anchors": [{"file": "transforms/matrix.go", "symbols": ["MatrixTransform.TransformPoint", "MatrixTransform.PathTransform"]}]}
{"id": "C20", "title": "Packed parts never overlap and never leave the sheet", "statement": "After any sequence of Insert calls on a Container, the bins returned by successful inserts are pairwise disjoint, lie inside the container, and each has exactly the requested size or the requested size rotated by 90 degrees.", "quantifier": "for all containers and all sequences of insert requests of positive size (exactly over the reals; in binary64 up to a multiple of one rounding)", "why_tests_cant": "a geometric invariant of a recursively growing tree, for all insertion histories.", "anchors": [{"file": "binpacking/binpacking.go", "symbols": ["Bin.Insert", "Container.Insert", "NewContainer"]}]}
{"id": "C21", "title": "Free area is accounted exactly", "statement": "GetEmptyArea() plus the areas of everything inserted equals the container area, after any history; a refused insert changes nothing.", "quantifier": "for all insertion histories (exact arithmetic)", "why_tests_cant": "conservation law over unbounded histories.", "anchors": [{"file": "binpacking/binpacking.go", "symbols": ["Container.GetEmptyArea", "Container.GetEmptyBins", "Bin.getEmpties", "Bin.Insert"]}]}
{"id": "C22", "title": "The Rotated flag tells how the part was placed", "statement": "A bin returned by Insert has Rotated = true exactly when its size is the requested size with width and height exchanged.", "quantifier": "for all insertion histories", "why_tests_cant": "wrong only when a later part exactly fills a left-over bin; tests never hit an exact fit.", "anchors": [{"file": "binpacking/binpacking.go", "symbols": ["Bin.Insert", "NewBin"]}, {"file": "dom/svg_renderer.go", "symbols": ["SVGDocument.Render"]}]}
{"id": "C23", "title": "Padding is respected", "statement": "With InsertWithPadding(p), every placed part is at least p away from every edge of the sheet and two placed parts are at least 2p apart along some axis.", "quantifier": "for all histories of padded inserts of positive size, p >= 0 (exactly over the reals; in binary64 up to a multiple of one rounding)", "why_tests_cant": "geometric invariant over histories.", "anchors": [{"file": "binpacking/binpacking.go", "symbols": ["Container.InsertWithPadding", "paddedPackable"]}]}
{"id": "C24", "title": "Insert succeeds exactly when some free rectangle is large enough", "statement": "Insert reports success if and only if some empty bin is at least as large as the part in one of its two orientations, and terminates after splitting at most twice.", "quantifier": "for all reachable containers and all positive part sizes", "why_tests_cant": "completeness over all tree shapes; a bounded test cannot exclude a missed bin.", "anchors": [{"file": "binpacking/binpacking.go", "symbols": ["Bin.Insert", "Bin.getEmpties"]}]}
{"id": "C25", "title": "Every part ends up on exactly one sheet", "statement": "Laying out a plan set places each part of positive size exactly once on some document, parts already placed are not moved by later ones, and layout never fails for lack of space: a part that is too big gets a document of its own which nothing else is added to.", "quantifier": "for all lists of rendered parts and all material sizes", "why_tests_cant": "first-fit over a growing list of containers for all part lists.", "anchors": [{"file": "dom/planset.go", "symbols": ["PlanSet.Init", "PlanSet.addPart"]}, {"file": "dom/svg_renderer.go", "symbols": ["SVGDocument.Add", "NewSVGDocument"]}]}
{"id": "C26", "title": "A rotated part is drawn inside its reserved rectangle", "statement": "The SVG transform emitted for a part with Rotated set maps the part's own rectangle [0,w]x[0,h] onto the reserved rectangle [x,x+h]x[y,y+w]; without it, onto [x,x+w]x[y,y+h].", "quantifier": "for all sizes and positions", "why_tests_cant": "geometric identity for all numbers.", "anchors": [{"file": "dom/svg_renderer.go", "symbols": ["SVGDocument.Render"]}]}
{"id": "C27", "title": "Dotted put and get agree", "statement": "After PutWithDot(key, v), Get(key) returns v for every dotted key, other keys not sharing a prefix are unaffected, and Remove(key) makes it absent; Put/Get on plain keys behave like a map.", "quantifier": "for all maps and all keys", "why_tests_cant": "map laws over all nested maps and key paths.", "anchors": [{"file": "dynmap/dynmap.go", "symbols": ["DynMap.Put", "DynMap.PutWithDot", "DynMap.Get", "DynMap.Remove", "DynMap.PutIfAbsent"]}]}
{"id": "C28", "title": "Merging maps is right-biased and deep", "statement": "Merge(m2) into m1: every leaf path of m2 is readable in the result with m2's value, every leaf path of m1 not touched by m2 keeps m1's value; merging with an empty map is the identity and merging a map with itself changes nothing; Clone shares nothing with the original.", "quantifier": "for all pairs of nested maps", "why_tests_cant": "recursive law over all nestings.", "anchors": [{"file": "dynmap/dynmap.go", "symbols": ["DynMap.Merge", "DynMap.Clone", "Merge"]}]}
{"id": "C29", "title": "Flattening and unflattening are inverse", "statement": "UnFlatten(Flatten(m)) = m for maps with dot-free keys and neither empty sub-maps nor slices, and the result does not depend on Go's map iteration order. Flatten lists exactly the values of a map, items of slices under the key of the slice and their index.", "quantifier": "for all nested maps and all iteration orders", "why_tests_cant": "iteration order is chosen by the runtime; a test sees one order.", "anchors": [{"file": "dynmap/dynmap.go", "symbols": ["DynMap.Flatten", "DynMap.UnFlatten"]}]}
{"id": "C30", "title": "Sorting maps by a key uses a consistent order", "statement": "The comparison used by dynmap sorting is a strict weak order (irreflexive, transitive), so sorting any list by any key yields a list in which missing keys come last and values are non-decreasing.", "quantifier": "for all lists of maps and all keys", "why_tests_cant": "strict-weak-order laws over all triples of values.", "anchors": [{"file": "dynmap/sort.go", "symbols": ["Less", "Sort"]}]}
{"id": "C31", "title": "Parameter lookup always terminates", "statement": "Looking up any parameter through Attr/ParamLookerUpper terminates with a value or an error, whatever cycles exist among parameter definitions.", "quantifier": "for all parameter maps, including self-referential and mutually recursive ones", "why_tests_cant": "non-termination on cyclic definitions cannot be observed by a finite test; depth limits interact with parents.", "anchors": [{"file": "dom/param_lookup.go", "symbols": ["ParamLookerUpper", "Attr", "BasicParamLookerUpper"]}, {"file": "dom/expression_eval.go", "symbols": ["EvalExpression"]}]}
{"id": "C32", "title": "Inner definitions shadow outer ones", "statement": "A lookup returns the definition found on the nearest enclosing element that defines the parameter; definitions on outer elements are used only when no inner element defines it.", "quantifier": "for all chains of enclosing elements and all parameter maps", "why_tests_cant": "scoping law over arbitrary nesting depth.", "anchors": [{"file": "dom/param_lookup.go", "symbols": ["BasicParamLookerUpper", "Lookup", "localLookup"]}]}
{"id": "C33", "title": "Splitting a Bezier curve preserves the curve", "statement": "SplitCurve(c,t) returns two curves such that the first at s equals c at t*s and the second at s equals c at t+(1-t)*s, for every s; they share the split point and keep c's end points.", "quantifier": "for all control points, all t, all s (exact arithmetic)", "why_tests_cant": "polynomial identity over all reals.", "anchors": [{"file": "bezier/bezier.go", "symbols": ["SplitCurve", "FindPoint", "DeCasteljau", "SplitCurveSection"]}]}
{"id": "C34", "title": "The curve bounding box contains the whole curve and is tight", "statement": "BoundingBox(c) contains the point of c at every t in [0,1], and each of its four sides is touched by the curve.", "quantifier": "for all control points, all t in [0,1] (exact arithmetic, |coordinates| < 2^63)", "why_tests_cant": "extrema are at irrational parameters; sampling points of sampled curves proves nothing about the rest.", "anchors": [{"file": "bezier/bezier.go", "symbols": ["BoundingBox", "droots", "extrema"]}, {"file": "path/segment_operators.go", "symbols": ["BezierCurveOperators.BoundingBox"]}]}
{"id": "C35", "title": "Bounding boxes of paths contain everything drawn", "statement": "BoundingBoxTrimWhitespace(p) contains every point of every drawn segment of p and is the smallest such rectangle; BoundingBoxWithWhitespace contains it.", "quantifier": "for all paths with at least one drawn segment (exact arithmetic)", "why_tests_cant": "a for-all-points statement over for-all paths.", "anchors": [{"file": "path/util.go", "symbols": ["BoundingBoxTrimWhitespace", "BoundingBoxWithWhitespace", "boundingBox"]}, {"file": "path/segment_operators.go", "symbols": ["DefaultSegmentOperators.BoundingBox"]}]}
{"id": "C36", "title": "Bounding box overlap test is symmetric and exact", "statement": "For rectangles of positive size, BoundingBoxOverlaps(a,b) is true exactly when some point is strictly inside both; for rectangles without width or height it is true exactly when each begins before the other ends in both directions. It does not depend on argument order.", "quantifier": "for all rectangles (exact arithmetic)", "why_tests_cant": "logical equivalence over all rectangles.", "anchors": [{"file": "bezier/bezier.go", "symbols": ["BoundingBoxOverlaps"]}]}
{"id": "C37", "title": "Line intersection finds the common point", "statement": "When LineIntersection reports success the returned point lies on both (infinite) lines; it fails only for lines parallel to the given precision; Intersect on two segments returns a point within both bounding boxes and is independent of argument order.", "quantifier": "for all pairs of lines (exact arithmetic)", "why_tests_cant": "algebraic identity with vertical and near-parallel cases.", "anchors": [{"file": "path/util.go", "symbols": ["LineIntersection"]}, {"file": "path/segment_operators.go", "symbols": ["DefaultSegmentOperators.Intersect"]}]}
{"id": "C38", "title": "A point at distance d along a line is on the line at that distance", "statement": "LineSegment.PointAtDistance(d) is at distance |d| from the start and, for 0 <= d <= length, lies on the segment between start and end.", "quantifier": "for all segments and distances (exact arithmetic)", "why_tests_cant": "depends on the quadrant of the line; tests use rightward lines.", "anchors": [{"file": "path/path.go", "symbols": ["LineSegment.PointAtDistance"]}, {"file": "path/draw.go", "symbols": ["Draw.RoundedCornerTo"]}]}
{"id": "C39", "title": "Quadratic curves are converted without changing shape", "statement": "QCurveTo(c,p) appends a cubic that traces exactly the quadratic Bezier with start the current position, control c and end p.", "quantifier": "for all current positions, control points and end points (exact arithmetic)", "why_tests_cant": "polynomial identity for all points; the only tests start at the origin.", "anchors": [{"file": "path/draw.go", "symbols": ["Draw.QCurveTo", "Draw.RelQCurveTo"]}]}
{"id": "C40", "title": "Parallel offsets are parallel at the requested distance", "statement": "Parallel(line,d) is parallel to line, of the same length, and at perpendicular distance |d|, on opposite sides for opposite signs; Offset with distance 0 returns the path unchanged; told that the result should be smaller or larger, it keeps the offset of a stroke that is so in both directions and otherwise takes the offset of the reversed stroke.", "quantifier": "for all non-degenerate lines and all d (exact arithmetic)", "why_tests_cant": "law over all directions.", "anchors": [{"file": "path/util.go", "symbols": ["Parallel"]}, {"file": "path/segment_operators.go", "symbols": ["DefaultSegmentOperators.Offset"]}, {"file": "transforms/offset.go", "symbols": ["OffsetTransform.PathTransform"]}]}
{"id": "C41", "title": "Horizontal slicing keeps only what is on the kept side", "statement": "HSliceTransform(y) returns a path none of whose drawn segments extends past y on the removed side, and every drawn segment entirely on the kept side survives.", "quantifier": "for all paths and all y (exact arithmetic)", "why_tests_cant": "depends on the extent of the cutting line relative to all geometry, including negative coordinates.", "anchors": [{"file": "transforms/slice.go", "symbols": ["HSliceTransform.PathTransform"]}, {"file": "path/util.go", "symbols": ["KnifeCut", "BoundingBoxWithWhitespace", "HorizontalIntercepts"]}]}
{"id": "C42", "title": "Splitting a segment at a point yields contiguous pieces with the same ends", "statement": "SegmentOperators.Split returns one or two pieces; the first starts at the segment's start, the last ends at its end, and consecutive pieces meet at the split point; KnifeCut's pieces are contiguous from the original start to the original end.", "quantifier": "for all segments and split points", "why_tests_cant": "recursion over intersections of all segments.", "anchors": [{"file": "path/segment_operators.go", "symbols": ["DefaultSegmentOperators.Split"]}, {"file": "path/util.go", "symbols": ["KnifeCut"]}]}
{"id": "C43", "title": "Automatic splitting only leaves unsplit what fits the material", "statement": "A part left unsplit by the automatic splitter fits the material sheet in one of the two orientations, and a part that fits is never split; the width and height kept with each resulting part are those of its drawing.", "quantifier": "for all part and material sizes", "why_tests_cant": "a decision over four numbers; tests do not cover portrait material.", "anchors": [{"file": "dom/part_splitter.go", "symbols": ["PartSplitter"]}]}
{"id": "C44", "title": "Unit conversions are inverse", "statement": "Converting a length from millimetres to inches and back (or the reverse) gives the same length; unit defaults are applied only when no unit is given or it is unknown.", "quantifier": "for all lengths (exact arithmetic) and all unit strings", "why_tests_cant": "law over all numbers and strings.", "anchors": [{"file": "dom/common.go", "symbols": ["ToInch", "ToMM", "MustUnits", "NewUnits"]}]}
{"id": "C45", "title": "Errors logged anywhere are seen at the top", "statement": "HasErrors() on a log is true whenever an error was logged on it or on any log derived from it by NewChild, at any depth.", "quantifier": "for all trees of child logs and all sequences of log calls", "why_tests_cant": "depth of derivation is unbounded; RenderAll's exit status depends on it.", "anchors": [{"file": "util/logging.go", "symbols": ["HfdLog", "NewChild", "HasErrors"]}, {"file": "main.go", "symbols": ["RenderAll"]}]}
{"id": "C46", "title": "Removing duplicates keeps exactly one of each, in order", "statement": "StringArrayDeDup returns each distinct string once, in order of first occurrence; Float64ArrayDeDup likewise for numbers that are equal to themselves.", "quantifier": "for all arrays", "why_tests_cant": "law over all arrays.", "anchors": [{"file": "path/util.go", "symbols": ["StringArrayDeDup", "Float64ArrayDeDup", "Float64ArrayInsertIfAbsent"]}]}
{"id": "C47", "title": "SVG transform attributes are applied", "statement": "Parsing an SVG element with a transform attribute yields the element's path with that transform applied.", "quantifier": "for all elements with a well-formed transform attribute", "why_tests_cant": "the parser silently ignores the attribute; tests only use untransformed elements.", "anchors": [{"file": "parser/svgparser.go", "symbols": ["ElementToPath", "TransformPath"]}]}
{"id": "C48", "title": "Chains of transforms run in order and stop at the first error", "statement": "MultiTransform(p, t1..tn) equals applying t1 then t2 ... then tn; if ti fails, the error is returned and no later transform runs.", "quantifier": "for all lists of transforms (arbitrary functions)", "why_tests_cant": "law over all transform functions.", "anchors": [{"file": "path/transforms.go", "symbols": ["MultiTransform"]}]}
{"id": "C49", "title": "Parts on one sheet never overlap and keep their padding", "statement": "On every sheet of a laid-out plan set that holds more than one part, the parts are pairwise at least twice the padding apart along some axis and at least the padding away from the sheet's edges, drawn in the orientation the layout reserved for them.", "quantifier": "for all lists of parts of positive size, all material sizes and all paddings >= 0 (exactly over the reals; in binary64 up to a multiple of one rounding)", "why_tests_cant": "the sheets are filled by an unbounded interleaving of first-fit over sheets and recursive splitting inside each sheet.", "anchors": [{"file": "dom/planset.go", "symbols": ["PlanSet.Init", "PlanSet.addPart"]}, {"file": "dom/svg_renderer.go", "symbols": ["SVGDocument.Add"]}, {"file": "binpacking/binpacking.go", "symbols": ["Container.InsertWithPadding"]}]}
{"id": "C50", "title": "RotateScale fits a drawing between two points", "statement": "RotateScaleTransform turns, enlarges and moves the drawing (one orientation-preserving similarity for all points) so that its first point lands exactly on StartPoint and its last point exactly on EndPoint, whenever the two were different; a drawing that ends where it starts is collapsed to StartPoint.", "quantifier": "for all paths with something drawn, all requested points (exact arithmetic)", "why_tests_cant": "the claim ties atan2, rotation about a box corner, the larger of two ratios and a move together for every direction, including the axis-parallel ones where one ratio is 0/0.", "anchors": [{"file": "transforms/rotate_scale.go", "symbols": ["RotateScaleTransform.PathTransform", "line"]}, {"file": "path/path.go", "symbols": ["LineSegment.Angle"]}, {"file": "transforms/rotate.go", "symbols": ["RotateTransform.PathTransform"]}, {"file": "transforms/scale.go", "symbols": ["ScaleTransform.PathTransform"]}]}
{"id": "C51", "title": "SVG shapes become their outlines", "statement": "Reading an SVG drawing turns a line into the segment between its two points, a rectangle into its four sides, a circle into a closed curve that stays within 0.03% of the circle and goes all around it, a path element into the path it describes, and a group into the drawings of its members in order; shapes that are not supported are reported as errors and never crash the program.", "quantifier": "for all elements, nested to any depth, with any attributes (exact arithmetic for the coordinates of lines, rectangles and circles)", "why_tests_cant": "elements nest without bound and attributes are arbitrary text; that no drawing crashes the reader is a claim about all documents, and the crash found needs an element without children of a kind nobody tested.", "anchors": [{"file": "parser/svgparser.go", "symbols": ["ElementToPath", "elementToPathNoTransforms"]}, {"file": "transforms/join.go", "symbols": ["SimpleJoin.JoinPaths"]}, {"file": "path/draw.go", "symbols": ["Draw.Rect", "Draw.Circle"]}, {"file": "path/path_parser.go", "symbols": ["ParsePathFromSvg"]}]}
{"id": "C52", "title": "Circles are round", "statement": "Draw.Circle(r) adds a closed curve around the point r right of and below the pen: every point added lies at a distance from the centre between r and 1.0003 r, and there is a point in every direction from the centre.", "quantifier": "for all radii and pen positions (exact arithmetic)", "why_tests_cant": "the bound is over the continuum of points of four Bezier curves and every direction; sampling sees finitely many.", "anchors": [{"file": "path/draw.go", "symbols": ["Draw.Circle", "Draw.RelCurveTo"]}]}
{"id": "C53", "title": "Smooth curves continue the previous curve", "statement": "After a curve, SmoothCurveTo adds a curve that leaves the joint with exactly the velocity (direction and speed) with which the previous curve arrived; after anything else it starts at the pen with a control point there; the relative form is the absolute form shifted by the pen.", "quantifier": "for all drawings, previous curves and requested control and end points (exact arithmetic)", "why_tests_cant": "equality of derivatives at the joint for all curves cannot be observed by comparing finitely many sampled points.", "anchors": [{"file": "path/draw.go", "symbols": ["Draw.SmoothCurveTo", "Draw.RelSmoothCurveTo"]}]}
{"id": "C54", "title": "Rounded corners are round and touch both legs", "statement": "RoundedCornerTo draws a straight leg towards the corner, an arc of the given radius that touches both legs, and a straight leg to the target; every point of the arc is between r and 1.0003 r from the point at distance r from both legs.", "quantifier": "for all corner points, targets and radii not longer than the legs (exact arithmetic)", "why_tests_cant": "the claim covers all directions of both legs; the code only treats axis-parallel second legs correctly, and its tests use only those.", "anchors": [{"file": "path/draw.go", "symbols": ["Draw.RoundedCornerTo"]}]}
{"id": "C55", "title": "Reordering continues where the pen is", "statement": "When ReorderTransform arranges the pieces of a path, each next piece is one that starts or ends where the previous one ended (to the precision) if there is one, drawn so that it continues from there; otherwise it is the piece whose nearer end is closest.", "quantifier": "for all paths with real coordinates, any number of pieces", "why_tests_cant": "a greedy choice repeated over the remaining pieces, with reversal; tests check a couple of fixed orders.", "anchors": [{"file": "transforms/path_reorder.go", "symbols": ["ReorderTransform.doPath", "ReorderTransform.PathTransform"]}, {"file": "path/util.go", "symbols": ["Distance", "GetStartAndEnd"]}]}
{"id": "C56", "title": "Where a curve meets a line", "statement": "IntersectsProjectedLine(curve, p1, p2) returns exactly the parameters t between 0 and 1 at which the curve lies on the straight line through p1 and p2.", "quantifier": "for all cubic curves and lines (exact arithmetic)", "why_tests_cant": "the roots are computed by closed formulas with case distinctions on the discriminant (Cardano); a wrong sign in one case is only seen for curves in that case.", "anchors": [{"file": "bezier/bezier.go", "symbols": ["Roots", "Align", "Crt", "Approx", "IntersectsProjectedLine"]}]}
{"id": "C57", "title": "A curve crosses a stretch of line whichever way the line is drawn", "statement": "IntersectsLine(curve, p1, p2) returns exactly the parameters t between 0 and 1 at which the curve lies on the line between p1 and p2 (to one millionth), so exchanging p1 and p2 changes nothing.", "quantifier": "for all cubic curves and lines (exact arithmetic)", "why_tests_cant": "the direction of the line matters only through a bounding box test; tests draw their lines in one direction.", "anchors": [{"file": "bezier/bezier.go", "symbols": ["IntersectsLine", "Roots"]}, {"file": "bezier/utils.go", "symbols": ["between"]}]}
{"id": "C58", "title": "Path text is read as the commands it spells", "statement": "ParsePathFromSvg draws exactly the commands its text spells: absolute and relative moves, lines, curves and smooth curves and closing, with decimal numbers, however blanks and commas are placed between the parts as SVG allows.", "quantifier": "for all lists of commands, decimal numbers of any length and all admissible placements of blanks and commas", "why_tests_cant": "the text is cut up by two regular expressions before it is read; whether an item survives depends on its neighbours, and tests use a few hand-written paths.", "anchors": [{"file": "path/path_parser.go", "symbols": ["ParsePathFromSvg", "next", "getNextFloats"]}, {"file": "dynmap/typecast.go", "symbols": ["ToFloat64"]}]}
{"id": "C59", "title": "Gears have the right number of identical teeth", "statement": "The gear component draws a closed outline of as many identical teeth as it is asked for, evenly spaced around the origin; the flanks follow the involute of the base circle, the outline stays between the root and the outer radius, and a tooth is half a circular pitch (less the backlash) wide at the pitch circle.", "quantifier": "for all numbers of teeth from 2, circular pitches, pressure angles between -90 and 90 degrees and clearances up to the addendum (exact arithmetic)", "why_tests_cant": "a tooth that is slightly too wide or uneven is not visible in a drawing; tests have no reference gear to compare with.", "anchors": [{"file": "components/gear.go", "symbols": ["Render", "q6", "q7", "iang"]}, {"file": "path/util.go", "symbols": ["PolarToCartesian"]}]}
{"id": "C60", "title": "Repeating fills the room with as many copies as fit", "statement": "The repeat component draws its child in a grid, as many times to the right and downwards as the room given allows (once where no room is given, an error if there is no room for one), each copy displaced by the child's width and height, and the copies stay inside the room.", "quantifier": "for all children, widths and heights (exact arithmetic)", "why_tests_cant": "the number of copies is a quotient rounded down from measured sizes; tests fix one child and one size.", "anchors": [{"file": "dom/repeat_component.go", "symbols": ["Render"]}, {"file": "transforms/move.go", "symbols": ["PathTransform"]}]}
{"id": "C61", "title": "Edges run from their start to their end", "statement": "basic_edge and repeat_edge draw their content for a horizontal edge of the length between the two points and carry it, without deforming it, so that it starts at the first point and runs towards the second; repeat_edge centres as many copies as fit between the paddings, fills both sides exactly, and reports edges that are too short.", "quantifier": "for all pairs of points, contents, paddings and numbers of copies (exact arithmetic)", "why_tests_cant": "edges in every direction have to close up with their neighbours; tests use axis-parallel ones.", "anchors": [{"file": "components/basic_edge.go", "symbols": ["Render"]}, {"file": "components/repeat_edge.go", "symbols": ["Render"]}]}
{"id": "C62", "title": "Copies around a circle form a closed ring", "statement": "The around component draws its child num_edges times, with around__length set to the side of the regular polygon and around__index set to the number of the copy, each copy turned by the same part of a full turn about the centre, starting where the one before ends; the last one ends where the first starts, and all these points are at the radius from the centre.", "quantifier": "for all numbers of copies, radii, centres and children (exact arithmetic)", "why_tests_cant": "the copies are placed by separate moves and turns about a centre that goes through a text; small misplacements add up only for particular centres.", "anchors": [{"file": "components/around.go", "symbols": ["Render"]}, {"file": "path/attributes.go", "symbols": ["ToPathAttrFromPoint"]}, {"file": "transforms/rotate.go", "symbols": ["PathTransform"]}]}
{"id": "C63", "title": "A shape drawn up to a point reaches it", "statement": "svg_connect_to draws the given shape turned, enlarged and moved without deforming it, svg_scale_to draws it stretched along the axes; in both cases the shape starts at the pen, ends at the point asked for, and the pen is left there. With reverse the shape is drawn from its end to its start.", "quantifier": "for all shapes, pens, points and both directions (exact arithmetic)", "why_tests_cant": "whether the end is met depends on signs of the two runs and on where the shape's own text starts; single drawings look right for shapes starting at the origin.", "anchors": [{"file": "dom/draw_component.go", "symbols": ["svgScaleTo", "svgRotateScaleTo"]}, {"file": "transforms/scale.go", "symbols": ["PathTransform"]}, {"file": "transforms/rotate_scale.go", "symbols": ["PathTransform"]}, {"file": "transforms/reverse.go", "symbols": ["PathTransform"]}]}
{"id": "C64", "title": "The intercepts of an outline at a height", "statement": "HorizontalIntercepts returns, sorted from left to right, the places where the outline has the given height: every returned point has that height and lies on the outline up to the precision, every place of the outline at that height (except on level lines) is returned, and at heights without corners each crossing is returned exactly once, an even number for a closed outline.", "quantifier": "for all outlines of lines and curves and all heights (exact arithmetic)", "why_tests_cant": "which crossings are found depends on where the outline lies, how steep its lines are and whether the height meets a corner; tests use one outline.", "anchors": [{"file": "path/util.go", "symbols": ["HorizontalIntercepts", "BoundingBoxWithWhitespace"]}, {"file": "path/segment_operators.go", "symbols": ["Intersect"]}]}
{"id": "C65", "title": "A lathe cuts one layer per thickness", "statement": "The lathe transform renders its component once for every step of the material's thickness down the outline, from the left to the right side of the outline at that height, numbered from 0, with the size of its drawing; total_height is the number of layers times the thickness, num_layers their number, top_width and bottom_width the lengths of the first and the last.", "quantifier": "for all outlines, components, thicknesses and paddings (exact arithmetic)", "why_tests_cant": "layers are skipped silently; whether one is lost depends on steps meeting corners of the outline.", "anchors": [{"file": "dom/lathe_part_transformer.go", "symbols": ["TransformPart"]}, {"file": "path/util.go", "symbols": ["HorizontalIntercepts"]}]}
{"id": "C66", "title": "An outline is filled with rows", "statement": "The xintercept component renders its repeatable in rows down the outline, between each pair of intercepts, the rows separated by the height of what is drawn and the spacing, so that rows do not overlap; it ends, and errors of the outline or the repeatable are reported.", "quantifier": "for all outlines, repeatables and spacings (exact arithmetic)", "why_tests_cant": "errors are answered by an absent path without an error, and rendering does not end for some spacings; tests cover one successful drawing.", "anchors": [{"file": "components/xintercept.go", "symbols": ["Render"]}, {"file": "path/util.go", "symbols": ["HorizontalIntercepts"]}]}
{"id": "C67", "title": "A part is what its children draw, measured", "statement": "Part.Render draws the children in order, each from where the one before ended, applies the transforms, and puts the result at the origin: nothing drawn is lost or added, the box of the drawing starts at (0,0), no two moves follow each other and the path stays connected. Part.RenderPart returns one such part for each repetition, with the width and height of its drawing.", "quantifier": "for all children, transforms, cursors and repeat counts (exact arithmetic)", "why_tests_cant": "the runs of moves come from joining and transforming arbitrary children; the tests measure single shapes.", "anchors": [{"file": "dom/part.go", "symbols": ["Part.Render", "Part.RenderPart"]}, {"file": "dom/models.go", "symbols": ["BasicComponent.HandleTransforms"]}, {"file": "transforms/trim_whitespace.go", "symbols": ["TrimWhitespaceTransform.PathTransform"]}]}
{"id": "C68", "title": "A group draws its children one after the other", "statement": "GroupComponent.Render draws its children in order, each with the cursor at the end of the one before; what is drawn is exactly what the children draw, then the transforms are applied first to last, and the cursor passed on is the end of the result. The first child that fails makes the group fail with its error.", "quantifier": "for all lists of children, transforms and cursors", "why_tests_cant": "a fold over arbitrary children; no test renders a group without children or with a blank child.", "anchors": [{"file": "dom/group_component.go", "symbols": ["GroupComponent.Render"]}, {"file": "dom/models.go", "symbols": ["BasicComponent.HandleTransforms"]}, {"file": "transforms/join.go", "symbols": ["SimpleJoin.JoinPaths"]}, {"file": "path/util.go", "symbols": ["PathCursor"]}]}
{"id": "C69", "title": "Named attributes of a path", "statement": "PathAttribute gives, for each of the nine names of a box, that point of the exact bounding box of what is drawn, with .X and .Y its coordinates; $WIDTH and $HEIGHT are its size; the start and end names are the ends of the path and of what is drawn. Every name accepted by ToPathAttr has a value, every other name is an error, and a point written by ToPathAttrFromPoint reads back as that point to the last decimal.", "quantifier": "for all paths and all texts", "why_tests_cant": "the names are looked up in two lists that must agree for every name, and the values depend on arbitrary curves; the tests use four names on one path.", "anchors": [{"file": "path/attributes.go", "symbols": ["PathAttribute", "PointPathAttribute", "ToPathAttr", "ToPathAttrFromPoint", "parsePoint"]}]}
{"id": "C70", "title": "The draw component carries out its commands in order", "statement": "DrawComponent.Render starts at the cursor and carries out its commands one after the other: each adds its stroke from where the one before ended (lines, curves, circles, rectangles and svg text exactly as asked; svg text connected or scaled to a point, counted from the pen if the command is relative, leads from the pen to that point, backwards if asked), nothing drawn before is changed and the path is connected; the cursor passed on is the end of the last stroke. An unknown command or one without an attribute it needs is an error; a command other than one with svg text that has all it needs does not fail.", "quantifier": "for all lists of commands, attributes and cursors", "why_tests_cant": "the state of the pen after arbitrary commands, including svg text, decides where the next stroke goes; the tests draw single shapes.", "anchors": [{"file": "dom/draw_component.go", "symbols": ["DrawComponent.Render"]}, {"file": "path/draw.go", "symbols": ["Draw.SvgPath", "Draw.RelLineTo", "Draw.SmoothCurveTo", "Draw.LineByAngle", "Draw.Rect"]}]}
{"id": "C71", "title": "Transforms are made from their type and attributes", "statement": "A transform in a document is made exactly if its type is known and the attributes it needs are found, otherwise rendering the component is an error whatever was drawn. An attribute left out has its documented default. The transforms of a component are applied in the order given. Each does to every drawn segment what its type and attributes say: move takes the point named by its handle to the given point, trim moves the box to the origin, rotate turns about the named point, matrix applies the six numbers, scale multiplies or fits to a width and height, mirror reflects within the box, reverse reverses, rotate_scale takes the ends to the points given, cleanup keeps the drawing to the decimals given, slice leaves nothing below its line, and offset with a size changes to the other side unless the first has that size. Every transform type that has a factory can be used, and a handle, axis or size that is not understood is an error.", "quantifier": "for all types, attributes, lists of transforms and drawings (coordinates below 2^62)", "why_tests_cant": "which attributes decide what a transform does, and in what combination, is spread over thirteen factories; the tests build the transform structs directly and never go through attributes.", "anchors": [{"file": "dom/transform_factories.go", "symbols": ["RotateTransformFactory.CreateTransform", "MoveTransformFactory.CreateTransform", "ScaleTransformFactory.CreateTransform", "MirrorTransformFactory.CreateTransform", "MatrixTransformFactory.CreateTransform", "ReorderTransformFactory.CreateTransform", "OffsetTransformFactory.CreateTransform"]}, {"file": "dom/app_context.go", "symbols": ["Factories.MakeTransform", "Factories.MakeTransforms"]}, {"file": "dom/models.go", "symbols": ["BasicComponent.HandleTransforms"]}, {"file": "parser/parser.go", "symbols": ["InitContext"]}]}
{"id": "C72", "title": "Documents that refer to files and import others", "statement": "A document with a filename stands for the document in that file with its own values put over it: the value of a key is the one in the nearest document of the chain that has it, maps are merged, imports add up with those of the farthest document first, and a file that cannot be read is an error. After an import each element of the imported document that names a custom component is known under that name or its alias, as it was defined, with the parameters of its document as defaults; an imported drawing is known under its alias. Parsing ends, does not depend on the order in which a map is visited, two custom components do not hide one another, and an entry that is not understood is an error.", "quantifier": "for all documents, files and chains of files", "why_tests_cant": "chains of any length and any nesting of maps decide a value; the tests parse one document without files.", "anchors": [{"file": "dom/app_context.go", "symbols": ["ParseDocument", "ParseDocumentFromPath", "populateElementsByID"]}, {"file": "dom/document.go", "symbols": ["Document.AllElements"]}, {"file": "dynmap/dynmap.go", "symbols": ["DynMap.Merge", "DynMap.AddToSlice", "DynMap.MustDynMapSlice"]}]}
{"id": "C73", "title": "Components are made from their types", "statement": "A component is made exactly if everything it is made of (its children and what its custom type stands for, at any depth) has a type that is known, otherwise parsing is an error. A component of a custom type has the type of the definition (a part becomes a group), is transformed as the definition says and then as is said where it is used, has the values and parameters given where it is used and those of the definition for all others. The map of a component made from custom ones stands for itself: it can be used, with the same result, in a document that does not have the definitions or has others of the same name. A custom component can be used under its name.", "quantifier": "for all definitions, custom components and depths", "why_tests_cant": "the definitions nest to any depth and are expanded recursively; no test parses a custom component.", "anchors": [{"file": "dom/app_context.go", "symbols": ["Factories.MakeComponent", "Factories.MakeComponents"]}, {"file": "dom/document.go", "symbols": ["DocumentContext.CreateCustomComponent"]}, {"file": "dom/group_component.go", "symbols": ["GroupComponentFactory.CreateComponent"]}, {"file": "dom/repeat_component.go", "symbols": ["RepeatComponentFactory.CreateComponent"]}, {"file": "components/repeat_edge.go", "symbols": ["EdgeComponentFactory.CreateComponent"]}]}
{"id": "C74", "title": "Elements and parts are found by id", "statement": "In a parsed document an element at any depth is found by its id, with any number of @ around it; what is found has that id, and nothing is found only if no element has it. A part is found the same way among the parts, the first if several have the id.", "quantifier": "for all documents, ids and depths", "why_tests_cant": "any id, also with @ inside or around, and any nesting; the tests look up two ids of one document.", "anchors": [{"file": "dom/document.go", "symbols": ["Document.FindElementByID", "Document.FindPartByID"]}, {"file": "dom/app_context.go", "symbols": ["populateElementsByID"]}]}
{"id": "C75", "title": "Comments are left out of a document and nothing else is", "statement": "Before a document is read, each comment to the end of a line and each comment between /* and */ is left out, and the rest, string literals in particular, is read as it is.", "quantifier": "for all texts made of letters, string literals and comments", "why_tests_cant": "where a comment starts and ends depends on all text before it; no test has a literal with slashes.", "anchors": [{"file": "dynmap/dynmap.go", "symbols": ["ParseJSON"]}]}
{"id": "C76", "title": "Where two curves meet", "statement": "The parameters that are reported for two curves are, up to five decimals, those of points where the curves meet, up to the threshold, and every point where they meet is reported. The search ends.", "quantifier": "for all finite curves, thresholds and parameters", "why_tests_cant": "the search cuts both curves again and again, and whether a crossing is lost depends on where the cuts fall; the tests look at a few curves.", "anchors": [{"file": "bezier/bezier.go", "symbols": ["IntersectsCurve", "_curveIntersects", "pairIteration", "reduce", "simple"]}, {"file": "path/segment_operators.go", "symbols": ["BezierCurveOperators.IntersectCurve"]}]}
{"id": "C77", "title": "The text that is written is an SVG document", "statement": "For every sheet, the text that is written is a well formed document: one svg element with the size and the view box of the sheet and, inside it, for every part one path element and for every label one text element, with the attributes and the text of the part.", "quantifier": "for all sheets, parts, labels and ids", "why_tests_cant": "whether the text can be read back depends on every character of the ids and labels and on whether a place is found for a label; the tests only look at designs without such labels.", "anchors": [{"file": "dom/svg_renderer.go", "symbols": ["docRenderable.render", "SVGDocument.start", "SVGDocument.end", "SVGDocument.WriteSVG", "NewSVGDocument"]}]}
{"id": "C78", "title": "The files that are written", "statement": "Rendering a directory saves every sheet of every design that renders in a file named after the design and the number of the sheet, whatever happens with the other designs; different sheets have different files and no other file is touched.", "quantifier": "for all directories of designs, whatever they render to, and all numbers of sheets", "why_tests_cant": "the names depend on every path in the directory and on the number of sheets, which tests cannot exhaust.", "anchors": [{"file": "main.go", "symbols": ["RenderAll", "createFilename", "save"]}, {"file": "util/file.go", "symbols": ["FileList"]}, {"file": "dom/planset.go", "symbols": ["PlanSet.RenderZip"]}]}
{"id": "C79", "title": "Comparing rendered designs", "statement": "The comparison of a directory of rendered sheets with another one finds every difference: it counts none exactly when both directories have the same files with the same texts.", "quantifier": "for all directories and contents of files", "why_tests_cant": "the test command is itself the only test of the designs, so what it overlooks no test can find.", "anchors": [{"file": "main.go", "symbols": ["CompareDirectories", "main"]}, {"file": "util/file.go", "symbols": ["FileList"]}]}
{"id": "C80", "title": "Cutting a curve with a line", "statement": "Cutting a segment with a line leaves pieces that together are the segment, and none of them has points on both sides of the line, however often the segment crosses it; so slicing at a height removes everything above it.", "quantifier": "for all curves, lines and heights", "why_tests_cant": "a curve crosses a line up to three times and the order in which the crossings are found depends on its coefficients; tests see a few curves, mostly with one crossing.", "anchors": [{"file": "path/util.go", "symbols": ["KnifeCut"]}, {"file": "bezier/bezier.go", "symbols": ["IntersectsLine", "Roots"]}, {"file": "path/segment_operators.go", "symbols": ["DefaultSegmentOperators.Split", "BezierCurveOperators.Split"]}, {"file": "transforms/slice.go", "symbols": ["HSliceTransform.PathTransform"]}]}
{"id": "C81", "title": "A map written as a URL query reads back", "statement": "A map encoded with MarshalUrl and read with UnmarshalUrl holds, at every path of the original map, the text of the value there, and nothing else; what a request means does not depend on the order in which its fields are visited, and no field is lost without an error.", "quantifier": "for all maps, nested to any depth, and for all orders of the fields of a query", "why_tests_cant": "the encoding has to be injective over all nested keys, and Go visits the fields in a random order; a test that passes once may fail the next time.", "anchors": [{"file": "dynmap/dynmap.go", "symbols": ["DynMap.MarshalUrl", "DynMap.UnmarshalUrl", "DynMap.UnmarshalUrlValues", "DynMap.urlEncode", "DynMap.PutWithDot"]}, {"file": "dynmap/typecast.go", "symbols": ["ToString"]}, {"file": "main.go", "symbols": ["processRequest"]}]}
{"id": "C82", "title": "An SVG file is read as the document it is", "statement": "Reading an SVG file gives the tree of its elements with their local names, attributes, order and text, however deep it is and whatever comments and blanks are in it; a file that is not well-formed is an error; two elements compare equal exactly if they are the same.", "quantifier": "for all documents, all ways to write them, and all places where a file can break off", "why_tests_cant": "documents nest to any depth, and files can be damaged anywhere; tests read a few complete files.", "anchors": [{"file": "parser/svgparser.go", "symbols": ["Parse", "DecodeFirst", "Element.Decode", "NewElement", "Element.Compare", "SVGParser.ParseSVG"]}]}
{"id": "C83", "title": "A sheet that was written can be imported again", "statement": "Importing a sheet that the program itself has written gives the drawing on that sheet: the outline of every part at its place, up to the rounding of the file, with or without labels.", "quantifier": "for all sheets, parts, places, labels and float64 coordinates", "why_tests_cant": "the round trip goes through the writer, the XML reader, the path reader and the joining of paths, each with its own cases; tests check each of them on a few inputs.", "anchors": [{"file": "dom/svg_renderer.go", "symbols": ["SVGDocument.WriteSVG", "docRenderable.render"]}, {"file": "parser/svgparser.go", "symbols": ["SVGParser.ParseSVG", "ElementToPath"]}, {"file": "path/path_parser.go", "symbols": ["ParsePathFromSvg"]}, {"file": "transforms/join.go", "symbols": ["SimpleJoin.JoinPaths"]}]}
{"id": "C84", "title": "What is written for a design are its parts, each once", "statement": "When a design is rendered and saved, the files written are SVG documents that together have one outline, with its id, for every part and the label of every part that has one, nothing twice and nothing else, and no other file is touched.", "quantifier": "for all lists of parts, all sizes of parts and material, paddings, units, names and directories", "why_tests_cant": "how the parts spread over sheets and files depends on all of their sizes and their order; tests look at single sheets.", "anchors": [{"file": "dom/planset.go", "symbols": ["PlanSet.Init", "PlanSet.addPart"]}, {"file": "dom/svg_renderer.go", "symbols": ["SVGDocument.Add", "SVGDocument.WriteSVG", "docRenderable.render"]}, {"file": "main.go", "symbols": ["save"]}]}
{"id": "C85", "title": "A request sets the parameters it names and gets the sheet it asks for", "statement": "The parameters of a design are those of the request where the request names them and its own everywhere else, and the rest of the design is not changed; the answer is the sheet with the number asked for, as an SVG image, a number without a sheet is refused, and the sheets are saved under the name asked for.", "quantifier": "for all designs, all nested parameters, all fields of a request, all numbers of sheets and names of files", "why_tests_cant": "requests combine any names, nested or not, with any design; there are no tests of the server.", "anchors": [{"file": "main.go", "symbols": ["renderPlanSet", "processRequest", "createFilename"]}, {"file": "dynmap/dynmap.go", "symbols": ["DynMap.Merge", "DynMap.Clone", "DynMap.UnmarshalUrlValues"]}]}
{"id": "C86", "title": "Numbers and lists are read from a map as they were put in", "statement": "An integer in decimal is read as that integer if it fits into 64 bits and is refused otherwise, whether it is asked for as an integer or as a float; a list written with a delimiter between its items is read back; what is added to a list, at a plain or dotted key, is at its end in order and nothing else changes, and adding to something else is an error.", "quantifier": "for all maps, keys, integers, texts, delimiters and lists of items", "why_tests_cant": "the reading depends on every character of a text and on what a key holds; tests read one value of each type.", "anchors": [{"file": "dynmap/typecast.go", "symbols": ["ToInt64", "ToFloat64", "ToBool"]}, {"file": "dynmap/dynmap.go", "symbols": ["GetInt", "GetIntSlice", "GetIntSliceSplit", "GetStringSlice", "GetStringSliceSplit", "AddToSlice", "AddToSliceWithDot", "PutAll"]}]}
{"id": "C87", "title": "Points and flags are read from attributes as they are written", "statement": "A point written as \"x,y\" or as a map with x and y has the values of the two expressions as coordinates; with a $ in front it is the cursor; written as an angle and a length it lies at that angle and length from the given start; a text with more commas is no point.  A flag is true for true, t, yes, y and on, and false for false, f, no, n and off, in any letters, is read as it is when it is a truth value, and has the default when it is missing.", "quantifier": "for all maps, attributes, enclosing elements, expression languages and texts", "why_tests_cant": "what is read depends on the parameters of all elements around; tests read a few points without such parameters.", "anchors": [{"file": "dom/param_lookup.go", "symbols": ["Point", "Point2", "ToPoint", "Bool", "MustBool"]}, {"file": "dynmap/typecast.go", "symbols": ["ToBool", "IsDynMapConvertable"]}]}
{"id": "C88", "title": "Variables that components set are found where they should be", "statement": "A variable a component sets for itself is found, with the value that was set, by the component and by every component inside it, unless one of those defines the name itself or the component has a parameter of that name; a variable it sets for the document is found by every component of the document, unless a component on the way or the document defines the name; setting a variable changes no other name.", "quantifier": "for all maps, nestings of components, names without dots and values that are not texts", "why_tests_cant": "which maps a lookup meets depends on the whole nesting; tests set a variable on one element and read it there.", "anchors": [{"file": "dom/models.go", "symbols": ["SetLocalVariable", "SetGlobalVariable"]}, {"file": "dom/document.go", "symbols": ["FindDocumentContext"]}, {"file": "dom/part.go", "symbols": ["Document"]}, {"file": "dom/param_lookup.go", "symbols": ["Lookup"]}]}
{"id": "C89", "title": "Listing and clearing the files of a directory", "statement": "Listing a directory gives exactly the paths of the files in it and in the directories below whose path ends as asked, each once; the list relative to the directory gives, put back behind the directory, the same paths; clearing a directory removes exactly the listed files and leaves every other path alone; the list of directories gives the directories.", "quantifier": "for all directory trees, directory names and endings", "why_tests_cant": "the trees are of any depth; tests list one small directory.", "anchors": [{"file": "util/file.go", "symbols": ["FileList", "RelFileList", "DirectoryList", "ClearDir"]}]}
{"id": "C90", "title": "Where a curve crosses itself", "statement": "The parameters that are reported for a curve belong, up to five decimals, to two points of it that are closer together than twice the threshold, with a whole piece of the curve between them; a curve that crosses itself is reported to do so; with a positive threshold the search ends.", "quantifier": "for all curves, thresholds and crossings", "why_tests_cant": "the search cuts the curve into pieces that depend on its shape and halves them until they are small; tests try single curves.", "anchors": [{"file": "bezier/bezier.go", "symbols": ["IntersectsSelf", "reduce", "_curveIntersects", "pairIteration"]}]}
{"id": "C91", "title": "A curve moved to the side", "statement": "A curve that is moved to the side by a distance becomes pieces without gaps from its moved start to its moved end; where the pieces meet they have the direction of the curve, and the handles of each piece are as much shorter as its radius is; moving a curve ends.", "quantifier": "for all curves, distances and precisions", "why_tests_cant": "the curve is cut into pieces that depend on its shape, and each piece is moved about the point where its normals meet; tests try single curves.", "anchors": [{"file": "path/segment_operators.go", "symbols": ["Offset"]}, {"file": "bezier/bezier.go", "symbols": ["Offset", "Scale", "reduce", "OffsetPoint", "normalize"]}]}
{"id": "C92", "title": "From the parts of a design to the sheets", "statement": "Each part of a design is on the sheets as often as its repeat says, each copy as its components draw it for its number, with the part's label and the number of the copy; the labels of the copies and of the layers cut from them differ; a part that cannot be drawn or has an unknown part transformer is an error and then nothing is written; pieces of a part that is split keep its label, and part transformers see the number of the copy they work on.", "quantifier": "for all designs, numbers of copies, drawings, labels and part transformers", "why_tests_cant": "designs combine repeats, labels, part transformers and layout; tests render single parts without looking at the labels, and compare whole files with earlier ones.", "anchors": [{"file": "dom/part.go", "symbols": ["RenderPart"]}, {"file": "dom/planset.go", "symbols": ["Init", "createSvgDoc"]}, {"file": "dom/app_context.go", "symbols": ["MakePartTransformers"]}, {"file": "dom/part_splitter.go", "symbols": ["TransformPart"]}, {"file": "dom/lathe_part_transformer.go", "symbols": ["TransformPart"]}]}
{"id": "C93", "title": "The nearest point of a curve", "statement": "Asking a curve for the point nearest to a given point returns a point of the curve, its parameter and its distance; no point of the curve is nearer than the one returned by more than a small part of its longest leg; and the search always ends.", "quantifier": "for all curves and all points", "why_tests_cant": "the search compares a hundred points and then twenty-one more; tests project at most one point onto one curve, and do not look for a nearer one.", "anchors": [{"file": "bezier/bezier.go", "symbols": ["Project", "getLUT", "closest"]}]}
{"id": "C94", "title": "The value of an expression", "statement": "A number written as an expression is read as the value of the expression: constants as they are, names as the numbers, flags or expressions that they stand for around the element, operators and the functions sqrt, distance, angle, mmToInch and inchToMM applied to the values; nothing else is ever read, and what has a value is not refused.", "quantifier": "for all documents, elements, expressions and parameters", "why_tests_cant": "names may stand for names and expressions in any enclosing element, any number of times; tests evaluate a handful of expressions.", "anchors": [{"file": "dom/expression_eval.go", "symbols": ["EvalExpression"]}, {"file": "dom/param_lookup.go", "symbols": ["ToFloat64", "Float64"]}]}
{"id": "C95", "title": "A text is shortened to the length asked for", "statement": "StringElipses(text, n) returns the text unchanged if it has at most n characters, and otherwise its first n-3 characters followed by three dots, so that the result is never longer than n.", "quantifier": "for all texts and all lengths", "why_tests_cant": "the length may be anything, also less than the three dots, and characters may take more than one byte; the one use in the code has the length 10 and texts of digits.", "anchors": [{"file": "path/util.go", "symbols": ["StringElipses"]}, {"file": "path/path_parser.go", "symbols": ["ParsePathFromSvg"]}]}
{"id": "C96", "title": "A map written as JSON is read back", "statement": "A DynMap that is written with ToJSON and read with ParseJSON (or written with MarshalJSON and read with UnmarshalJSON) gives the same keys and values; every map that was read can be written and read again; and the text does not depend on the order in which Go visits the entries.", "quantifier": "for all maps with finite numbers, texts of characters and any nesting up to 10000, and for all texts that are read", "why_tests_cant": "maps can be nested without bound and texts can contain every character, escapes, quotes and the marks of comments; Go visits the entries of a map in a random order.", "anchors": [{"file": "dynmap/dynmap.go", "symbols": ["ParseJSON", "MarshalJSON", "ToJSON", "UnmarshalJSON"]}]}
{"id": "C97", "title": "The id of an element is made of what it says", "statement": "An element with an id keeps it; an element without one gets an id that depends on its content only (not on the order of entries), and two elements with different content get different ids unless the md5 sums of their texts agree; ids are unique in a document.", "quantifier": "for all elements, whatever they contain", "why_tests_cant": "the id is a hash of a text in which all entries are written, in an order that Go would otherwise choose at random on every run; that different contents never give the same text is a statement about all pairs of maps.", "anchors": [{"file": "dom/app_context.go", "symbols": ["MakeBasicElement", "nextId", "populateElementsByID"]}, {"file": "dom/models.go", "symbols": ["BasicElement", "BasicComponent"]}]}
{"id": "C98", "title": "The command line does what it says", "statement": "render saves the sheets of the design that the flag path (or the first word) names, under the name that output_file gives; render_all and designs_updated save those of a whole directory; diff_test prints zero exactly when no old sheet differs from a new one of the same name; flags may be written in four ways and the last one counts; a wrong line changes no file and does not crash the program.", "quantifier": "for all command lines, designs, directories and disks", "why_tests_cant": "flags can be repeated, mixed and written in four ways on lines of any length, and the effect depends on every file of the directories; tests run one line each.", "anchors": [{"file": "main.go", "symbols": ["main", "RenderAll", "CompareDirectories", "createFilename", "save"]}, {"file": "util/file.go", "symbols": ["FileList", "ClearDir"]}]}
{"id": "C99", "title": "The questions asked of a map agree, and removed keys are gone", "statement": "Contains, Exists, ContainsAll, Must, GetString, MustString, GetInt64, MustInt, MustFloat64, MustBool and ContainsDynMap of a dynmap all answer from the one value that is under the key (the entry of that name, or else what lies along its dotted parts), converted, and give the default exactly when there is none or it cannot be converted; RemoveAll leaves none of its keys and touches nothing else.", "quantifier": "for all maps, keys (dotted or not), values and defaults", "why_tests_cant": "keys can be missing, dotted, literal with dots, empty texts or of any type, at any depth; a test asks for a few.", "anchors": [{"file": "dynmap/dynmap.go", "symbols": ["Contains", "ContainsAll", "ContainsString", "ContainsDynMap", "Exists", "Must", "GetString", "MustString", "GetInt64", "MustInt64", "MustInt", "MustFloat64", "MustBool", "RemoveAll"]}]}
{"id": "C100", "title": "Each type is made by the last factory registered for it", "statement": "After Init, whatever was registered before, a component, transform or part transformer is made by the last of the given factories that names its type, and a type no factory names is an error, except that a component may then be one the document has imported; adding a factory changes its own types only; the factories that InitContext registers each make their own types, InitContext again changes nothing, and the precision is always three. Every transform factory of the program can be used, and an imported component is the one that is used under its name.", "quantifier": "for all lists of factories, types, contexts and sequences of calls", "why_tests_cant": "the registry is one global object, filled in any order by any list of factories; tests only ever fill it with the shipped list.", "anchors": [{"file": "dom/app_context.go", "symbols": ["AppContext", "SetFileLoader", "Init", "AddTransformFactory", "AddPartTransformerFactory", "AddComponentFactory", "MakeComponent", "MakePartTransformer", "MakeTransform"]}, {"file": "parser/parser.go", "symbols": ["InitContext"]}]}
{"id": "C101", "title": "Log messages keep their fields, and are printed once", "statement": "A message is kept with the level, text and time of the call and with the call's fields laid over the log's StaticFields, and the log it was derived from keeps it once more with these fields laid over its own; no map given is changed by logging, and the StaticFields of a log are those put on that log. ToDynMap of a message gives these fields, with message, timestamp and level over them. A message is printed once, as LEVEL:: text, in the order of the calls, exactly if it is at least as severe as the LogToStdOut of the log it is logged on, which a child takes over when it is made. What was logged stays as it was when the caller uses its maps again.", "quantifier": "for all logs, nested fields, levels and sequences of calls", "why_tests_cant": "maps are shared by reference: whether a kept message can still change depends on which maps were copied, for nested maps of any shape.", "anchors": [{"file": "util/logging.go", "symbols": ["LogMessage", "ToDynMap", "NewChild", "logFromChild", "addMsg", "Logf"]}, {"file": "dynmap/dynmap.go", "symbols": ["Clone", "Merge"]}, {"file": "main.go", "symbols": ["RenderAll"]}]}
