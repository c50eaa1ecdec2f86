{
 "claims": [
  {
   "property": "C01",
   "status": "proved",
   "theorems": [
    "C01_contiguous",
    "C01_append_only",
    "C01_reaches_target",
    "C01_strokes"
   ],
   "note": "For every sequence of drawing calls and every number system (no law assumed); in exact arithmetic, the strokes that the calls add (C01_strokes)."
  },
  {
   "property": "C02",
   "status": "partial",
   "theorems": [
    "C02_parse_print",
    "C02_binary64_partial",
    "C02_reprint_refuted",
    "C02_rebuild"
   ],
   "note": "Round trip proved for every float type and for all binary64 paths (incl. NaN/Inf): kinds, order, distance, fixed point; reprint identical unless a coordinate prints as -0.00 (that part REFUTED by a witness)."
  },
  {
   "property": "C03",
   "status": "proved",
   "theorems": [
    "C03_equivalence",
    "C03_points",
    "C03_close_binary64",
    "C03_special_binary64",
    "C03_close_exact"
   ],
   "note": "Equivalence for every float type; closeness for binary64 (real value of the float) and exact reals; specials equal only themselves."
  },
  {
   "property": "C04",
   "status": "partial",
   "theorems": [
    "C04_near_zero_refuted",
    "C04_signed_zero_refuted",
    "C04_near_zero_partial",
    "C04_rounds_to_zero",
    "C04_antisymmetry_refuted",
    "C04_antisymmetry_partial",
    "C04_antisymmetry_exact",
    "C04_direction"
   ],
   "note": "REFUTED: values of opposite sign rounding to zero print -0.000/0.000 and differ; compare(NaN,x)=compare(x,NaN)=1. Proved: same-sign case and antisymmetry away from NaN and opposite zeros."
  },
  {
   "property": "C05",
   "status": "proved",
   "theorems": [
    "C05_NewPathFromSegments_drawn",
    "C05_NewPathFromSegmentsWithoutMove_drawn",
    "C05_HeadMove_drawn",
    "C05_FixHeadMove_drawn",
    "C05_TrimTailMove_drawn",
    "C05_TrimMove_drawn",
    "C05_TrimMove_pieces",
    "C05_TrimMove_ends",
    "C05_TrimMove_idempotent",
    "C05_starts_with_origin_move"
   ],
   "note": "For every list of segments and every number system."
  },
  {
   "property": "C06",
   "status": "proved",
   "theorems": [
    "C06_split_loses_nothing"
   ],
   "note": "For every contiguous path."
  },
  {
   "property": "C07",
   "status": "partial",
   "theorems": [
    "C07_well_formed_partial",
    "C07_same_drawing",
    "C07_no_nan_end",
    "C07_idempotent",
    "C07_laws_float",
    "C07_laws_exact",
    "C07_contiguous_refuted"
   ],
   "note": "REFUTED for paths containing a segment with a NaN end (C07_contiguous_refuted); well-formedness proved for every other path, drawing preservation and absence of NaN ends proved for all paths."
  },
  {
   "property": "C08",
   "status": "partial",
   "theorems": [
    "C08_dedup_partial",
    "C08_selection",
    "C08_pairs",
    "C08_constructed_paths",
    "C08_well_formed",
    "C08_panics_refuted"
   ],
   "note": "REFUTED: panics for a path without leading move (C08_panics_refuted); proved in full for every path with a leading move, which is every path made by NewPathFromSegments."
  },
  {
   "property": "C09",
   "status": "proved",
   "theorems": [
    "C09_reverses",
    "C09_twice",
    "C09_contiguous"
   ],
   "note": "For every contiguous path."
  },
  {
   "property": "C10",
   "status": "proved",
   "theorems": [
    "C10_reorder",
    "C10_groups_are_all",
    "C10_transform"
   ],
   "note": "For every contiguous path; also the effect of the whole transform including its final Dedup."
  },
  {
   "property": "C11",
   "status": "partial",
   "theorems": [
    "C11_one_stroke_partial",
    "C11_laws_float",
    "C11_contiguous_refuted",
    "C11_curves",
    "C11_line_curve_partial",
    "C11_curve_line_partial",
    "C11_pair_partial",
    "C11_two_curves",
    "C11_far_end_refuted"
   ],
   "note": "Termination and shape proved; contiguity proved for paths of curves (C11_curves) and for joining any two strokes except parallel lines and curves met at an end (C11_pair_partial, exact arithmetic), where it is REFUTED (C11_contiguous_refuted, C11_far_end_refuted)."
  },
  {
   "property": "C12",
   "status": "partial",
   "theorems": [
    "C12_closes_partial",
    "C12_closes_refuted",
    "C12_curves"
   ],
   "note": "REFUTED (C12_closes_refuted: three sides of a rectangle stay open); proved when the outer strokes meet to precision, are intersecting lines, or are both curves, and for whole paths of curves (C12_curves)."
  },
  {
   "property": "C13",
   "status": "partial",
   "theorems": [
    "C13_join_keeps_strokes_partial",
    "C13_pen_semantics",
    "C13_refuted",
    "C13_no_paths_panics"
   ],
   "note": "REFUTED for later paths not beginning with a move (C13_refuted) and for no paths (panic); proved otherwise."
  },
  {
   "property": "C14",
   "status": "proved",
   "theorems": [
    "C14_shift_exact",
    "C14_shift_composes",
    "C14_shift_undone",
    "C14_move_places_handle",
    "C14_move_places_ends",
    "C14_start_position_refuted",
    "C14_binary64",
    "C14_grid",
    "C14_move_binary64"
   ],
   "note": "exact arithmetic, curve control points below 2^63; in binary64 a shift is exact up to one rounding for every drawing (C14_binary64), exact on a grid (C14_grid), and a move of a straight drawing places its corner up to two roundings (C14_move_binary64); the handle $START_POSITION, outside the statement, is not placed (C14_start_position_refuted)"
  },
  {
   "property": "C15",
   "status": "proved",
   "theorems": [
    "C15_trim_at_origin",
    "C15_trim_idempotent",
    "C15_binary64",
    "C15_binary64_idempotent"
   ],
   "note": "exact arithmetic; idempotence for coordinates below 2^62; in binary64 a straight drawing is put at the origin exactly and trimming again changes no number (C15_binary64, C15_binary64_idempotent)"
  },
  {
   "property": "C16",
   "status": "proved",
   "theorems": [
    "C16_both_sizes",
    "C16_width_keeps_ratio",
    "C16_height_keeps_ratio",
    "C16_positive_needed",
    "C16_binary64",
    "C16_binary64_width",
    "C16_binary64_height"
   ],
   "note": "exact arithmetic; C16_positive_needed shows why the drawing's size must be positive; in binary64 straight drawings reach the size up to eight roundings (C16_binary64, C16_binary64_width, C16_binary64_height)"
  },
  {
   "property": "C17",
   "status": "proved",
   "theorems": [
    "C17_rotate_formula",
    "C17_rotate_rigid",
    "C17_rotate_composes",
    "C17_full_turn",
    "C17_transform_rigid",
    "C17_transform_composes",
    "C17_transform_full_turn",
    "C17_handles_exist",
    "C17_binary64"
   ],
   "note": "exact arithmetic (real sine, cosine and pi); in binary64, with a cosine and a sine good to eps, every point of a drawing turned about a point is right up to six roundings and eps times a quarter of the range (C17_binary64)"
  },
  {
   "property": "C18",
   "status": "partial",
   "theorems": [
    "C18_mirror_keeps_box",
    "C18_mirror_twice",
    "C18_ends_in_box",
    "C18_trailing_move_refuted",
    "C18_other_handle_refuted",
    "C18_empty_panics"
   ],
   "note": "REFUTED for paths ending in a move out of the box and for handles other than the top left; proved for the default handle and every path whose ends lie in its box"
  },
  {
   "property": "C19",
   "status": "proved",
   "theorems": [
    "C19_matrix_formula",
    "C19_matrix_composes",
    "C19_identity",
    "C19_inverse",
    "C19_binary64"
   ],
   "note": "exact arithmetic; in binary64 up to four roundings, for every drawing (C19_binary64)"
  },
  {
   "property": "C20",
   "status": "proved",
   "theorems": [
    "C20_packing",
    "C20_size_binary64",
    "C20_binary64",
    "C20_split"
   ],
   "note": "All histories: exactly over the reals, and in binary64 up to at most 2n+1 roundings for n requests (C20_binary64). IsHorizontalSplit is true exactly for the bins divided into parts on top of each other (C20_split)."
  },
  {
   "property": "C21",
   "status": "proved",
   "theorems": [
    "C21_area_conserved",
    "C21_refused_unchanged_R",
    "C21_refused_unchanged_binary64",
    "C21_zero_size_refused"
   ],
   "note": "All histories, exact arithmetic; refusal without effect also for binary64."
  },
  {
   "property": "C22",
   "status": "partial",
   "theorems": [
    "C22_flag_right_unless_exact_fit_partial_R",
    "C22_flag_right_unless_exact_fit_partial_binary64",
    "C22_missing_rotation_refuted",
    "C22_spurious_rotation_refuted"
   ],
   "note": "REFUTED for exact fits (both directions); proved for every other placement, exact and binary64."
  },
  {
   "property": "C23",
   "status": "partial",
   "theorems": [
    "C23_padding_partial",
    "C23_flag_refuted",
    "C23_binary64_partial"
   ],
   "note": "Room and clearances proved for all histories, exactly over the reals and in binary64 up to 2n+6 roundings for n requests; that the Rotated flag tells which orientation was reserved is REFUTED (C23_flag_refuted)."
  },
  {
   "property": "C24",
   "status": "proved",
   "theorems": [
    "C24_insert_complete_R",
    "C24_insert_complete_binary64",
    "C24_history_returns_binary64",
    "C24_nan_container_refuted",
    "C24_single"
   ],
   "note": "All reachable containers, exact arithmetic and binary64; containers made for one object (C24_single). Finding: a NaN-sized container recurses forever."
  },
  {
   "property": "C25",
   "status": "proved",
   "theorems": [
    "C25_each_part_once",
    "C25_each_part_once_binary64",
    "C25_placed_parts_stay",
    "C25_bad_size_is_an_error",
    "C25_oversized_part_alone"
   ],
   "note": "Each part once: exact arithmetic and binary64 (finite padded sizes). Stability and error cases: every float type. Oversized alone: exact arithmetic."
  },
  {
   "property": "C26",
   "status": "proved",
   "theorems": [
    "C26_drawn_where_reserved",
    "C26_rigid",
    "C26_text"
   ],
   "note": "Including the rounding of the printed transform (at most 0.0005) and the reading of its text (C26_text); exact arithmetic otherwise."
  },
  {
   "property": "C27",
   "status": "partial",
   "theorems": [
    "C27_plain",
    "C27_put_get",
    "C27_put_others",
    "C27_put_fails",
    "C27_remove",
    "C27_put_if_absent",
    "C27_literal_refuted",
    "C27_remove_refuted",
    "C27_string_map_refuted",
    "C27_put_if_absent_dots",
    "C27_if_absent_refuted",
    "C27_text_map",
    "C27_removed",
    "C27_remove_text_refuted"
   ],
   "note": "REFUTED when the dotted key is also present literally (put hidden, remove incomplete) or below a map[string]string (C27_literal_refuted, C27_remove_refuted, C27_string_map_refuted); otherwise proved: put/get, frame, failure condition, remove, put-if-absent for nested maps without sharing; PutIfAbsentWithDot says that it put a value also when it could not (C27_if_absent_refuted); a map of texts is handed out as a new map of the same texts (C27_text_map); Remove returns what Get returns, whatever the maps are (C27_removed), but a text in a map of texts stays there (C27_remove_text_refuted)"
  },
  {
   "property": "C28",
   "status": "partial",
   "theorems": [
    "C28_merge",
    "C28_right",
    "C28_left",
    "C28_nothing_else",
    "C28_empty",
    "C28_self",
    "C28_clone",
    "C28_clone_shares_refuted",
    "C28_string_map_refuted"
   ],
   "note": "REFUTED for slices (a clone shares them and the maps in them, C28_clone_shares_refuted) and below a map[string]string (C28_string_map_refuted); otherwise proved exactly: contents of the merge at every path, nothing shared, empty and self merge, clone, for nested maps with dot-free keys"
  },
  {
   "property": "C29",
   "status": "proved",
   "theorems": [
    "C29_round_trip",
    "C29_flatten",
    "C29_flatten_again",
    "C29_order",
    "C29_lists"
   ],
   "note": "flattening and unflattening nested maps with non-empty dot-free keys, any order of the entries; empty nested maps disappear, as stated; items of lists are flattened under their index (C29_lists)"
  },
  {
   "property": "C30",
   "status": "partial",
   "theorems": [
    "C30_less",
    "C30_slice_less",
    "C30_sorted",
    "C30_bool_refuted",
    "C30_float_refuted",
    "C30_fraction"
   ],
   "note": "REFUTED for booleans (C30_bool_refuted) and for fractional numbers (C30_float_refuted); otherwise proved: strict weak order and sorted results; numbers count as their whole parts (C30_fraction); sort.Sort itself is not modelled, only the comparison it is given"
  },
  {
   "property": "C31",
   "status": "partial",
   "theorems": [
    "C31_lookup",
    "C31_attribute",
    "C31_string",
    "C31_expression",
    "C31_functions",
    "C31_dollars",
    "C31_point_refuted",
    "C31_function_refuted",
    "C31_panic_refuted",
    "C31_quiet"
   ],
   "note": "REFUTED for points given by names that refer to each other (C31_point_refuted), for functions applied to texts (C31_function_refuted), calls without arguments and components without parent panic (C31_panic_refuted); otherwise proved: lookup, attribute lookup, strings, expressions without functions or with functions of scalars end, dollar signs do not count (C31_dollars), and apart from sqrt without arguments nothing ends with an error or a panic (C31_quiet); the expression parser is abstract"
  },
  {
   "property": "C32",
   "status": "partial",
   "theorems": [
    "C32_params",
    "C32_nearest",
    "C32_text",
    "C32_outermost_text",
    "C32_own_text",
    "C32_undefined",
    "C32_attribute",
    "C32_attribute_element",
    "C32_default",
    "C32_capture_refuted",
    "C32_cycle_refuted",
    "C32_long_refuted",
    "C32_default_written"
   ],
   "note": "REFUTED when a defined text happens to be the name of an outer parameter (C32_capture_refuted), for cyclic definitions (C32_cycle_refuted) and for more than 20 indirections (C32_long_refuted): then an outer definition wins; otherwise proved: nearest definition wins, texts, undefined names, attributes and defaults, and where the parameters and the defaults of an element are (C32_params, C32_default_written)"
  },
  {
   "property": "C33",
   "status": "partial",
   "theorems": [
    "C33_split_partial",
    "C33_split_at_zero_refuted",
    "C33_section_partial",
    "C33_evaluation_agrees"
   ],
   "note": "REFUTED at t=0 (SplitCurve(c,0) returns c at -s and four zero points); proved for every other t, for sections, and evaluation by de Casteljau = Bernstein"
  },
  {
   "property": "C34",
   "status": "proved",
   "theorems": [
    "C34_bounding_box_tight",
    "C34_bounding_box_unique"
   ],
   "note": "exact arithmetic, control points below 2^63 in absolute value"
  },
  {
   "property": "C35",
   "status": "partial",
   "theorems": [
    "C35_trim_box_tight",
    "C35_whitespace_box_contains_partial",
    "C35_whitespace_box_refuted",
    "C35_point_in_box"
   ],
   "note": "every drawn point passes PointInBoundingBox with the box of the drawing, no point outside it does, and no smaller box does (C35_point_in_box); REFUTED for BoundingBoxWithWhitespace when the drawing has negative coordinates; BoundingBoxTrimWhitespace proved tight; the whitespace box contains drawings without negative coordinates"
  },
  {
   "property": "C36",
   "status": "proved",
   "theorems": [
    "C36_exact",
    "C36_exact_degenerate",
    "C36_symmetric",
    "C36_discarded_curves_at_most_touch"
   ],
   "note": "exact arithmetic"
  },
  {
   "property": "C37",
   "status": "partial",
   "theorems": [
    "C37_common_point_partial",
    "C37_fails_only_parallel",
    "C37_parallel_none",
    "C37_intersect_in_boxes",
    "C37_intersect_finds",
    "C37_order_irrelevant",
    "C37_steep_refuted"
   ],
   "note": "REFUTED for nearly vertical lines (C37_steep_refuted): there the reported point is off one line; proved exact otherwise, failure only for parallel lines, boxes and order-independence proved; exact arithmetic"
  },
  {
   "property": "C38",
   "status": "partial",
   "theorems": [
    "C38_distance",
    "C38_on_segment_partial",
    "C38_near_vertical",
    "C38_leftward_refuted"
   ],
   "note": "REFUTED for leftward lines (C38_leftward_refuted); the distance is right for all lines, the point lies on the segment for rightward, vertical and horizontal ones; exact arithmetic"
  },
  {
   "property": "C39",
   "status": "partial",
   "theorems": [
    "C39_traced",
    "C39_same_shape_partial",
    "C39_shape_refuted",
    "C39_relative"
   ],
   "note": "REFUTED unless the pen has equal coordinates (C39_shape_refuted: the Y control point is computed from the X coordinate); proved when they are equal; exact arithmetic"
  },
  {
   "property": "C40",
   "status": "proved",
   "theorems": [
    "C40_parallel",
    "C40_offset_line",
    "C40_zero_distance",
    "C40_nothing_drawn",
    "C40_polyline_strokes",
    "C40_single_line",
    "C40_size"
   ],
   "note": "exact arithmetic for Parallel and Offset; zero distance for every float type; a single line and the strokes of a polyline through the whole transform to the seven decimals it keeps; the choice of side by the size asked for (C40_size)"
  },
  {
   "property": "C41",
   "status": "partial",
   "theorems": [
    "C41_kept_below_partial",
    "C41_low_lines_survive",
    "C41_left_refuted",
    "C41_axis_refuted",
    "C41_flat_refuted"
   ],
   "note": "REFUTED for drawings left of the origin, without width, or with nearly flat lines (C41_left_refuted, C41_axis_refuted, C41_flat_refuted); proved for moves and lines otherwise (result within the precision of the kept side, low lines survive in order); curves that pass the height at most once are in C80_slice_below_partial, for others it is false (C80_twice_refuted); exact arithmetic"
  },
  {
   "property": "C42",
   "status": "partial",
   "theorems": [
    "C42_split_partial",
    "C42_default_float",
    "C42_default_exact",
    "C42_knife_contiguous",
    "C42_knife_complete",
    "C42_meets_at_point",
    "C42_meets_refuted",
    "C42_line_knife_terminates"
   ],
   "note": "REFUTED for the meeting point of a curve split at a point that carries no parameter (C42_meets_refuted); proved: one or two contiguous pieces of the same kind with the same ends for every segment, meeting at the point for moves, lines and curve points with their parameter; KnifeCut contiguous, complete, and terminating for lines"
  },
  {
   "property": "C43",
   "status": "partial",
   "theorems": [
    "C43_fitting_unsplit",
    "C43_pieces_fit_partial",
    "C43_sizes",
    "C43_portrait_refuted",
    "C43_offset_refuted"
   ],
   "note": "REFUTED for portrait sheets and for positive y_offset (C43_portrait_refuted, C43_offset_refuted); proved: a part that fits is never split (any path, any sheet), and on landscape sheets without positive offset every piece of a part of moves and lines fits; curves not covered for the second; the sizes kept with the parts are those of their drawings (C43_sizes); exact arithmetic"
  },
  {
   "property": "C44",
   "status": "proved",
   "theorems": [
    "C44_round_trip",
    "C44_float_round_trip",
    "C44_inch",
    "C44_names",
    "C44_not_ascii"
   ],
   "note": "round trip exact over the reals and within two parts in 2^52 in binary64; unit names characterised"
  },
  {
   "property": "C45",
   "status": "partial",
   "theorems": [
    "C45_children_partial",
    "C45_messages",
    "C45_depth_refuted",
    "C45_fatal_refuted"
   ],
   "note": "REFUTED beyond one level (C45_depth_refuted); proved exactly: HasErrors iff an error was logged on the log or a direct child, and the messages kept; and a message of level fatal does not count as an error (C45_fatal_refuted)"
  },
  {
   "property": "C46",
   "status": "proved",
   "theorems": [
    "C46_same_members",
    "C46_no_duplicates",
    "C46_first_occurrence",
    "C46_floats_first_occurrence"
   ],
   "note": "Strings and floats."
  },
  {
   "property": "C47",
   "status": "partial",
   "theorems": [
    "C47_ignored_refuted",
    "C47_matrix_refuted",
    "C47_pattern_refuted"
   ],
   "note": "REFUTED: every transform attribute of every element is ignored (C47_ignored_refuted), because the pattern is matched against a constant text"
  },
  {
   "property": "C48",
   "status": "proved",
   "theorems": [
    "C48_in_order",
    "C48_stops"
   ],
   "note": "For any list of transforms."
  },
  {
   "property": "C49",
   "status": "partial",
   "theorems": [
    "C49_no_overlap_partial",
    "C49_overlap_refuted",
    "C49_binary64_partial"
   ],
   "note": "Clearances proved for the reserved orientation, over the reals and in binary64 up to 2n+6 roundings for n parts; REFUTED for the drawn one when a part fills a free rectangle exactly (C49_overlap_refuted)."
  },
  {
   "property": "C50",
   "status": "proved",
   "theorems": [
    "C50_ends_placed",
    "C50_closed_collapses"
   ],
   "note": "exact arithmetic"
  },
  {
   "property": "C51",
   "status": "partial",
   "theorems": [
    "C51_line",
    "C51_rect",
    "C51_circle",
    "C51_group",
    "C51_total",
    "C51_path",
    "C51_unsupported",
    "C51_panic_refuted"
   ],
   "note": "REFUTED: elements of other kinds without children, e.g. ellipse or title, crash the reader (C51_panic_refuted); otherwise proved: line, rect, circle, path, group, unsupported shapes reported, no crash if every other element has a child; the XML decoder is not modelled"
  },
  {
   "property": "C52",
   "status": "proved",
   "theorems": [
    "C52_shape",
    "C52_round",
    "C52_around"
   ],
   "note": "exact arithmetic"
  },
  {
   "property": "C53",
   "status": "proved",
   "theorems": [
    "C53_smooth",
    "C53_mirrored",
    "C53_no_curve_before",
    "C53_relative"
   ],
   "note": "exact arithmetic"
  },
  {
   "property": "C54",
   "status": "partial",
   "theorems": [
    "C54_across_then_down",
    "C54_down_then_across",
    "C54_round",
    "C54_round_across",
    "C54_slanted_refuted"
   ],
   "note": "REFUTED for slanted second legs (C54_slanted_refuted); proved for axis-parallel corners in exact arithmetic"
  },
  {
   "property": "C55",
   "status": "proved",
   "theorems": [
    "C55_follows"
   ],
   "note": "exact arithmetic; before the final de-duplication, which C08 and C10 cover"
  },
  {
   "property": "C56",
   "status": "partial",
   "theorems": [
    "C56_meets_partial",
    "C56_flat_refuted",
    "C56_along_refuted"
   ],
   "note": "proved in exact arithmetic, both directions, for coefficients that are zero or above the tolerance; REFUTED below the tolerance (C56_flat_refuted) and for curves along the line (C56_along_refuted)"
  },
  {
   "property": "C57",
   "status": "partial",
   "theorems": [
    "C57_crossing_partial",
    "C57_downward_refuted"
   ],
   "note": "REFUTED for lines drawn towards smaller Y (C57_downward_refuted); proved for the others in exact arithmetic"
  },
  {
   "property": "C58",
   "status": "partial",
   "theorems": [
    "C58_reads_partial",
    "C58_close_refuted",
    "C58_minus_refuted"
   ],
   "note": "REFUTED for Z, which draws nothing (C58_close_refuted), and for a negative number directly after the letter (C58_minus_refuted); proved for all lists of commands M m L l C c S s Z otherwise"
  },
  {
   "property": "C59",
   "status": "proved",
   "theorems": [
    "C59_gear",
    "C59_within",
    "C59_seam"
   ],
   "note": "exact arithmetic; the valley between two teeth misses closing by the difference of 3.142 and pi, which C59_seam bounds"
  },
  {
   "property": "C60",
   "status": "partial",
   "theorems": [
    "C60_copies",
    "C60_fits",
    "C60_left_refuted"
   ],
   "note": "proved in exact arithmetic for children that start at the origin and draw nothing left of or above it; REFUTED for children reaching to the left (C60_left_refuted)"
  },
  {
   "property": "C61",
   "status": "partial",
   "theorems": [
    "C61_basic_edge",
    "C61_repeat_edge",
    "C61_no_room_refuted"
   ],
   "note": "proved in exact arithmetic for both components; REFUTED for edges without room, which are drawn too long instead of reported (C61_no_room_refuted)"
  },
  {
   "property": "C62",
   "status": "partial",
   "theorems": [
    "C62_ring_partial",
    "C62_centre_refuted",
    "C62_index_refuted",
    "C62_negative_refuted"
   ],
   "note": "proved in exact arithmetic for centres with at most the document's number of decimals; REFUTED for other centres (C62_centre_refuted), for around__index, which is always 0 (C62_index_refuted), and for negative numbers of copies (C62_negative_refuted)"
  },
  {
   "property": "C63",
   "status": "partial",
   "theorems": [
    "C63_connect",
    "C63_scale_partial",
    "C63_connect_reversed",
    "C63_scale_reversed_partial",
    "C63_backwards_refuted",
    "C63_level_refuted",
    "C63_reversed_refuted",
    "C63_pen_refuted"
   ],
   "note": "proved in exact arithmetic for svg_connect_to, and for svg_scale_to if the shape runs the way asked for; REFUTED for svg_scale_to with other runs (C63_backwards_refuted, C63_level_refuted), for reversed shapes not starting at the origin (C63_reversed_refuted) and for the pen after them (C63_pen_refuted)"
  },
  {
   "property": "C64",
   "status": "partial",
   "theorems": [
    "C64_intercepts_partial",
    "C64_crossings",
    "C64_even",
    "C64_left_refuted",
    "C64_corner_refuted"
   ],
   "note": "proved in exact arithmetic for outlines of lines and curves right of the origin that are clear of the tolerances; REFUTED for outlines reaching left of the origin (C64_left_refuted) and for heights of corners, where crossings are returned twice (C64_corner_refuted)"
  },
  {
   "property": "C65",
   "status": "partial",
   "theorems": [
    "C65_layers",
    "C65_silhouette_partial",
    "C65_corner_refuted",
    "C65_top_refuted",
    "C65_notch_refuted"
   ],
   "note": "proved in exact arithmetic what the layers are, and that every step is a layer for silhouettes whose corners are missed by the steps; REFUTED for corners at a step, where a layer is lost (C65_corner_refuted), for outlines below the top of the page (C65_top_refuted) and for notched outlines (C65_notch_refuted)"
  },
  {
   "property": "C66",
   "status": "partial",
   "theorems": [
    "C66_rows_partial",
    "C66_any_height",
    "C66_error_refuted",
    "C66_component_error_refuted",
    "C66_endless_refuted",
    "C66_overlap_refuted"
   ],
   "note": "proved in exact arithmetic for repeatables of any height and a positive spacing (C66_any_height) and, with equal rows, for a fixed height (C66_rows_partial); REFUTED for pieces of different heights in one row, where rows overlap because only the last piece of the row counts (C66_overlap_refuted), for errors, which are not reported (C66_error_refuted, C66_component_error_refuted), and for negative spacings, where rendering does not end (C66_endless_refuted)"
  },
  {
   "property": "C67",
   "status": "partial",
   "theorems": [
    "C67_render",
    "C67_repeat",
    "C67_gap_refuted",
    "C67_empty"
   ],
   "note": "proved in exact arithmetic, all coordinates below 2^62; REFUTED for connectedness: of several moves in a row the last is kept as it is and does not start where the drawing stopped (C67_gap_refuted)"
  },
  {
   "property": "C68",
   "status": "partial",
   "theorems": [
    "C68_group",
    "C68_transformed",
    "C68_error",
    "C68_empty_refuted",
    "C68_blank_refuted"
   ],
   "note": "proved for drawing (exact arithmetic) and errors (every arithmetic); REFUTED for a group without children and for a child that draws nothing, which stop the program (C68_empty_refuted, C68_blank_refuted)"
  },
  {
   "property": "C69",
   "status": "partial",
   "theorems": [
    "C69_box",
    "C69_ends",
    "C69_point",
    "C69_accepted",
    "C69_unknown",
    "C69_cursor_refuted",
    "C69_end_field_refuted",
    "C69_box_field_refuted",
    "C69_as_point"
   ],
   "note": "proved in exact arithmetic for paths with coordinates below 2^62, and that a number is never taken for a point (C69_as_point); REFUTED for $CURSOR, which is accepted and has no value (C69_cursor_refuted), for the coordinates of the ends, which give the whole point (C69_end_field_refuted), and for the coordinates of the box, which ToPathAttr refuses (C69_box_field_refuted)"
  },
  {
   "property": "C70",
   "status": "proved",
   "theorems": [
    "C70_connected",
    "C70_errors",
    "C70_total",
    "C70_draws",
    "C70_svg_connect",
    "C70_svg_scale"
   ],
   "note": "connectedness, errors and totality for every arithmetic; the strokes in exact arithmetic, svg text starting with an absolute move; svg text drawn up to a point as in C63 (C70_svg_connect, C70_svg_scale)"
  },
  {
   "property": "C71",
   "status": "partial",
   "theorems": [
    "C71_made",
    "C71_unmade",
    "C71_in_order",
    "C71_defaults",
    "C71_effect",
    "C71_reverse",
    "C71_rotate_scale",
    "C71_cleanup",
    "C71_slice",
    "C71_offset_size",
    "C71_reorder_refuted",
    "C71_unchecked_refuted",
    "C71_misspelt_refuted"
   ],
   "note": "proved: what is made and in which order for every arithmetic, the effect on the drawing in exact arithmetic (slice as in C80, the size of an offset for single strokes); REFUTED for reorder, which has a factory and is an unknown type (C71_reorder_refuted), and for handles, axes and sizes that are not understood, which are silently replaced by the default (C71_unchecked_refuted, C71_misspelt_refuted)"
  },
  {
   "property": "C72",
   "status": "partial",
   "theorems": [
    "C72_files",
    "C72_unreadable",
    "C72_import",
    "C72_svg",
    "C72_endless_refuted",
    "C72_order_refuted",
    "C72_same_id_refuted",
    "C72_malformed_refuted",
    "C72_lists",
    "C72_stray_refuted"
   ],
   "note": "proved for every document whose chain of files ends and whose maps have distinct keys; REFUTED for documents that refer to themselves or import themselves, which are parsed forever (C72_endless_refuted), for two elements with one custom type, where the order of a map decides (C72_order_refuted), for equal ids, which hide a custom component (C72_same_id_refuted), and for malformed lists and unknown kinds of import, which are silently ignored (C72_malformed_refuted): one stray value among the parts and the document has none (C72_stray_refuted); C72_lists says which lists count; keys with dots are merged literally in the model"
  },
  {
   "property": "C73",
   "status": "partial",
   "theorems": [
    "C73_known",
    "C73_unknown",
    "C73_expanded",
    "C73_custom",
    "C73_name_refuted",
    "C73_repeat_refuted"
   ],
   "note": "proved for every definition; REFUTED for the map of a component with a repeat inside, whose child stays custom and is an error, another component or an endless recursion elsewhere (C73_repeat_refuted), and for custom components with the name of a factory, which are never used (C73_name_refuted)"
  },
  {
   "property": "C74",
   "status": "partial",
   "theorems": [
    "C74_found",
    "C74_only",
    "C74_part",
    "C74_at_refuted",
    "C74_same_refuted"
   ],
   "note": "proved for every element with an id that no other has and that neither starts nor ends with @; REFUTED for ids that start or end with @, which are never found (C74_at_refuted), and for the uses of a custom component with an id and components written alike, which share an id so that only one is found (C74_same_refuted)"
  },
  {
   "property": "C75",
   "status": "partial",
   "theorems": [
    "C75_strip",
    "C75_plain",
    "C75_url_refuted",
    "C75_hidden_refuted",
    "C75_last_refuted"
   ],
   "note": "proved for every text whose literals do not have the start of a comment inside; REFUTED for literals with // (C75_url_refuted) or /* (C75_hidden_refuted), of which the rest is lost, and for a comment on a last line without an end, which stays (C75_last_refuted); reading what is left is C96"
  },
  {
   "property": "C76",
   "status": "partial",
   "theorems": [
    "C76_pieces",
    "C76_reported",
    "C76_found_partial",
    "C76_crossing",
    "C76_ends",
    "C76_reported_refuted",
    "C76_crossing_refuted",
    "C76_handle_refuted",
    "C76_points",
    "C76_meeting",
    "C76_bends"
   ],
   "note": "proved over the reals: the reduction is a partition into simple sections (C76_pieces), what is reported is nearer than twice the threshold (C76_reported), and comes as a point of the first curve (C76_points), a crossing away from the cuts is found (C76_crossing, C76_found_partial) and the search ends (C76_ends); for two curves that bend one way and gently the reduction is never empty and their meetings away from the cuts are found (C76_bends); REFUTED: two parallel lines are reported to meet (C76_reported_refuted), two lines that cross in their middles are never found (C76_crossing_refuted), and a curve with a handle on its end is given up so that nothing it meets is found (C76_handle_refuted)"
  },
  {
   "property": "C77",
   "status": "partial",
   "theorems": [
    "C77_document",
    "C77_sheet",
    "C77_unplaced_refuted",
    "C77_escape_refuted",
    "C77_stroke"
   ],
   "note": "proved: when the ids and labels have no special characters and every label has a place, an independent XML reader reads back exactly the expected tree (C77_document), with the size of the sheet in the given units (C77_sheet) and lines 0.3 mm wide (C77_stroke); REFUTED: a label for which no place is found makes the whole text unreadable (C77_unplaced_refuted), and ids and labels are not escaped (C77_escape_refuted)"
  },
  {
   "property": "C78",
   "status": "partial",
   "theorems": [
    "C78_name",
    "C78_given",
    "C78_sheet_name",
    "C78_distinct",
    "C78_saved",
    "C78_zip",
    "C78_files",
    "C78_same_refuted",
    "C78_stale_refuted",
    "C78_slash"
   ],
   "note": "proved: the file names (C78_name, C78_given, C78_sheet_name, C78_slash), that they are all different (C78_distinct), that every sheet is saved and nothing else is touched if no two designs have the same name (C78_saved), archives (C78_zip) and which files are designs (C78_files); REFUTED: designs of the same name in two directories overwrite each other (C78_same_refuted), and sheets of an earlier rendering stay (C78_stale_refuted)"
  },
  {
   "property": "C79",
   "status": "partial",
   "theorems": [
    "C79_reported",
    "C79_count",
    "C79_missing_refuted",
    "C79_place_refuted",
    "C79_unreadable_refuted"
   ],
   "note": "proved: which differences and missing files are reported and when none are counted if names are unique (C79_reported, C79_count); REFUTED: missing and new files are not counted, even if all are missing (C79_missing_refuted), and files are compared by name only, so that a directory can differ from itself (C79_place_refuted), and a file that cannot be read counts as empty (C79_unreadable_refuted)"
  },
  {
   "property": "C80",
   "status": "partial",
   "theorems": [
    "C80_at_most_once",
    "C80_one_crossing",
    "C80_twice_refuted",
    "C80_slice_refuted",
    "C80_slice_below_partial"
   ],
   "note": "proved: a curve is cut at most once (C80_at_most_once) and one that crosses the line once, within reach, is cut there into halves that do not cross it (C80_one_crossing), and slicing a path of lines and such curves keeps nothing above the height (C80_slice_below_partial); REFUTED: every curve that crosses the line and comes back keeps a piece that crosses it (C80_twice_refuted), because the first crossing of both halves is the cut itself; slicing in float64 keeps points above the height (C80_slice_refuted)"
  },
  {
   "property": "C81",
   "status": "partial",
   "theorems": [
    "C81_fields",
    "C81_round_trip",
    "C81_slice_refuted",
    "C81_keys_refuted",
    "C81_order_refuted",
    "C81_conflict_refuted"
   ],
   "note": "proved: for nested maps without slices, empty parts, dots or brackets in keys, the query holds one field per value (C81_fields) and read in any order gives the text of every value at its path, and nothing else, in a map of its own (C81_round_trip); REFUTED: a slice comes back with one element more, the text of the whole slice (C81_slice_refuted); empty maps are dropped and keys with brackets read at other paths (C81_keys_refuted); of two spellings of one parameter the kept one depends on the order (C81_order_refuted); a value below another is lost without an error (C81_conflict_refuted)"
  },
  {
   "property": "C82",
   "status": "partial",
   "theorems": [
    "C82_tree",
    "C82_compare",
    "C82_broken_refuted",
    "C82_empty_refuted"
   ],
   "note": "proved: every file, as the tokens of Go's XML decoder, is read as its document (C82_tree), files that break off inside it are an error of Parse, and Compare is exact (C82_compare); REFUTED: ParseSVG overwrites that error and stops the program with a nil pointer for every file that breaks off (C82_broken_refuted) and for files without an element (C82_empty_refuted); Go's XML decoder is not modelled"
  },
  {
   "property": "C83",
   "status": "partial",
   "theorems": [
    "C83_outlines",
    "C83_place_refuted",
    "C83_label_refuted"
   ],
   "note": "proved in binary64: importing a sheet without labels draws the outline of every part in order, rounded to the decimals of the file (C83_outlines); REFUTED: the places of the parts are lost, sheets that differ only in them are imported alike (C83_place_refuted), and a sheet with any label stops the program (C83_label_refuted); that the decoder gives the tokens of the text is a hypothesis (fileOf)"
  },
  {
   "property": "C84",
   "status": "partial",
   "theorems": [
    "C84_written",
    "C84_flat_refuted",
    "C84_written_exact"
   ],
   "note": "proved for every float type with the laws of the packer, so in binary64 and exactly, for parts of positive size with plain ids and labels that have a place: the files hold documents with the outlines and labels of the parts, each as often as given, and no other file is touched (C84_written, C84_written_exact); REFUTED: one part without area and nothing is written (C84_flat_refuted); other ids and labels see C77"
  },
  {
   "property": "C85",
   "status": "partial",
   "theorems": [
    "C85_params",
    "C85_request",
    "C85_answer",
    "C85_default",
    "C85_silent_refuted",
    "C85_index_refuted",
    "C85_save_refuted",
    "C85_type_refuted",
    "C85_names_refuted"
   ],
   "note": "proved: which parameters a design has with a request, for any nested maps (C85_params) and for the fields of a query (C85_request), and that the body is the sheet asked for (C85_answer), by default the first (C85_default); REFUTED: a number without a sheet panics (C85_index_refuted), the name to save under is ignored and files are written next to the design (C85_save_refuted), the type of the answer is set too late (C85_type_refuted), and the number of the sheet replaces a parameter called index (C85_names_refuted); a design that cannot be rendered gets an empty answer (C85_silent_refuted)"
  },
  {
   "property": "C86",
   "status": "partial",
   "theorems": [
    "C86_int_text",
    "C86_text_list",
    "C86_int_list",
    "C86_add",
    "C86_add_read",
    "C86_all",
    "C86_add_dots",
    "C86_add_dots_new",
    "C86_put_all",
    "C86_octal_refuted",
    "C86_wraps_refuted",
    "C86_empty_refuted",
    "C86_dropped_refuted",
    "C86_below_refuted",
    "C86_hidden_refuted",
    "C86_bases",
    "C86_underscores",
    "C86_flags",
    "C86_kinds",
    "C86_put_nothing",
    "C86_number_of_integer",
    "C86_number_of_text",
    "C86_words",
    "C86_numeral",
    "C86_exponent"
   ],
   "note": "proved: integers are read as the nearest binary64 numbers (C86_number_of_integer), texts of decimal numbers too (C86_number_of_text), with exponents (C86_exponent); the texts read as finite numbers are exactly those of the usual form (C86_numeral), and exactly seven words as infinities and NaN (C86_words), decimal texts with any blanks (C86_int_text), the other bases, signs and groups of figures (C86_bases, C86_underscores), flags (C86_flags), values of other kinds (C86_kinds, C86_put_nothing), lists of texts and integers that are split (C86_text_list, C86_int_list), lists read whole or not at all (C86_all), items added at plain and dotted keys (C86_add, C86_add_read, C86_add_dots, C86_add_dots_new) and whole maps put in (C86_put_all); REFUTED: texts with a leading zero are octal integers but decimal floats (C86_octal_refuted), integers out of range become others when they are not texts (C86_wraps_refuted), the empty list is read as one empty text (C86_empty_refuted), adding to what is not a list is no error (C86_dropped_refuted, C86_below_refuted), and adding at a dotted key makes a second list that hides the first (C86_hidden_refuted)"
  },
  {
   "property": "C87",
   "status": "partial",
   "theorems": [
    "C87_pair",
    "C87_map",
    "C87_cursor",
    "C87_no_point",
    "C87_polar",
    "C87_straight",
    "C87_flag",
    "C87_truth",
    "C87_missing",
    "C87_flag_refuted",
    "C87_polar_refuted"
   ],
   "note": "proved for every expression language: both forms of points, the cursor, other texts, angle and length, flags, truth values and defaults; REFUTED: a flag written t is lost when the document has a parameter t (C87_flag_refuted), and a point with angle and length is not found when the attribute names a parameter that holds it (C87_polar_refuted); recursion depths are explicit; exact float operations are those of the code"
  },
  {
   "property": "C88",
   "status": "partial",
   "theorems": [
    "C88_else",
    "C88_local",
    "C88_global",
    "C88_nested_refuted",
    "C88_hidden_refuted",
    "C88_dropped_refuted",
    "C88_loose_refuted"
   ],
   "note": "proved: local and document variables are found below and in the whole document, other names stay; REFUTED: an entry of the component's own params hides the variable it sets and a parameter of the document hides the document variable (C88_hidden_refuted); a component in a part that is not directly in the document, or without a document, fails with a panic when it sets a document variable (C88_nested_refuted, C88_loose_refuted); a variable whose name goes through a value that is no map is dropped (C88_dropped_refuted)"
  },
  {
   "property": "C89",
   "status": "partial",
   "theorems": [
    "C89_files",
    "C89_once",
    "C89_relative",
    "C89_clear",
    "C89_directories_refuted",
    "C89_relative_refuted",
    "C89_ending_refuted",
    "C89_place",
    "C89_tidy"
   ],
   "note": "proved: files listed exactly and once, the relative list and clearing, for directory names that are already clean; for any other directory name the paths lead to the files in it and are tidy (C89_place, C89_tidy); REFUTED: the list of directories holds files and no directory (C89_directories_refuted); './designs' is not stripped and '.' strips the dot of hidden files (C89_relative_refuted); an ending without its dot also matches files that have no extension (C89_ending_refuted)"
  },
  {
   "property": "C90",
   "status": "partial",
   "theorems": [
    "C90_reported",
    "C90_found",
    "C90_ends",
    "C90_narrow_refuted"
   ],
   "note": "proved: reported parameters belong to close points with a whole piece between them, crossings of curves that are not given up are found unless the search cuts the curve exactly at one of the two parameters, the search ends; REFUTED: a narrow loop of any size is given up and its crossing is not found, with any threshold (C90_narrow_refuted)"
  },
  {
   "property": "C91",
   "status": "partial",
   "theorems": [
    "C91_whole",
    "C91_contiguous",
    "C91_ends",
    "C91_straight_refuted",
    "C91_narrow_refuted",
    "C91_closed_refuted",
    "C91_handle_refuted",
    "C91_bends"
   ],
   "note": "proved: a bent curve whose handles are apart from its ends becomes pieces that follow it from start to end, or nothing; it is never nothing when the curve bends one way, by less than fifteen degrees in a hundredth of its parameter (C91_bends); the pieces have no gaps and the direction of the curve where they meet; moving ends; REFUTED: a straight curve of any length is lost (C91_straight_refuted), so is a curve with a narrow bend (C91_narrow_refuted) and one that ends where it starts (C91_closed_refuted); a curve with a handle on its start is moved in a wrong direction there (C91_handle_refuted)"
  },
  {
   "property": "C92",
   "status": "partial",
   "theorems": [
    "C92_sheets",
    "C92_failure",
    "C92_unknown",
    "C92_labels_differ",
    "C92_split_label_refuted",
    "C92_ids_refuted",
    "C92_copies",
    "C92_index_refuted"
   ],
   "note": "proved for every design: the sheets have exactly what the parts render to (in exact arithmetic: each copy as drawn, measured and labelled), labels differ, and a failing part or an unknown part transformer writes nothing; REFUTED: every piece cut by a splitter loses its label (C92_split_label_refuted), part transformers see the number of the last copy for all copies (C92_index_refuted), and the copies on a sheet share one id (C92_ids_refuted)"
  },
  {
   "property": "C93",
   "status": "partial",
   "theorems": [
    "C93_ends",
    "C93_on_curve",
    "C93_distance",
    "C93_origin",
    "C93_blind",
    "C93_nearest_refuted",
    "C93_exchanged_refuted"
   ],
   "note": "proved in exact arithmetic for every finite curve within 2^63 of the origin: the search ends after at most 22 rounds, returns a point of the curve, with its parameter unless an end is found, and a distance not above the true one; for the origin the answer is the nearest point up to sqrt 2 / 66 of the longest leg; REFUTED: the first search never looks at the point that is asked about, so any two answers are within sqrt 2 * 4 / 66 of the longest leg (C93_blind) and a point of the curve itself gets an answer more than four away (C93_nearest_refuted), and distance and parameter are exchanged when an end is found (C93_exchanged_refuted)"
  },
  {
   "property": "C94",
   "status": "partial",
   "theorems": [
    "C94_value",
    "C94_only",
    "C94_refused",
    "C94_unique",
    "C94_parameter",
    "C94_attribute",
    "C94_arithmetic",
    "C94_functions",
    "C94_call",
    "C94_limit_refuted",
    "C94_integer",
    "C94_integer_arithmetic"
   ],
   "note": "proved for every document, every expression and any parser and operators of the library: a number is read exactly if the value is a number or an expression for one with at most 20 names replaced by expressions, and it is that number and no other (value, only, refused, unique), the same for parameters and attributes, for arithmetic of any size over numeric parameters, exactly for integers that binary64 has (integer, integer_arithmetic), and for the five functions of numbers, lists and points; REFUTED: the limit of 20 counts all names replaced in an expression and not how deep they are nested, so a sum of 21 uses of a parameter written as an expression is refused although it has a value (C94_limit_refuted)"
  },
  {
   "property": "C95",
   "status": "partial",
   "theorems": [
    "C95_shortened",
    "C95_length",
    "C95_tiny_refuted",
    "C95_half_refuted"
   ],
   "note": "proved in bytes for every length of three or more: the result is the shortened text and no other, and never longer than asked for; REFUTED: a text that does not fit into fewer than three bytes is a panic (C95_tiny_refuted), and a character of two bytes can be cut in half (C95_half_refuted)"
  },
  {
   "property": "C96",
   "status": "partial",
   "theorems": [
    "C96_marshal",
    "C96_round",
    "C96_stable",
    "C96_order",
    "C96_ends",
    "C96_refuse",
    "C96_last",
    "C96_text",
    "C96_unicode",
    "C96_pair",
    "C96_comment_refuted",
    "C96_bytes_refuted",
    "C96_null_refuted",
    "C96_escapes",
    "C96_blank",
    "C96_nothing_else",
    "C96_tame",
    "C96_deep_refuted",
    "C96_deep"
   ],
   "note": "proved for every map with finite numbers, texts of characters and each key once, of any size and nested up to the 10000 levels that the reader takes, over any numbers that are read as they are written: MarshalJSON and UnmarshalJSON give the same map (C96_marshal), ToJSON and ParseJSON too if no text contains the start of a comment (C96_round); whatever is read can be written and read again (C96_stable), the order of entries does not matter (C96_order), every text is read or refused (C96_ends), exactly the maps with NaN or infinities are not written (C96_refuse), the last of two entries with one key counts (C96_last), literals and escapes stand for their characters (C96_text, C96_unicode, C96_pair, C96_escapes), white space may be anywhere between the parts (C96_blank) and nothing else around the map (C96_nothing_else), what is written has no <, > and & and no control bytes (C96_tame), and maps in maps 10000 deep are read (C96_deep); REFUTED: deeper ones are written and not read (C96_deep_refuted), a text with // or /* in it is not read back, or something else is (C96_comment_refuted), nor are bytes that are no characters (C96_bytes_refuted), and null is read as a map that is nil (C96_null_refuted)"
  },
  {
   "property": "C97",
   "status": "partial",
   "theorems": [
    "C97_given",
    "C97_shown",
    "C97_order",
    "C97_content",
    "C97_parsed",
    "C97_parent",
    "C97_unique_refuted",
    "C97_other_refuted"
   ],
   "note": "proved: a given id is kept (C97_given), as the text that is shown for it if it is none (C97_shown); the id does not depend on the order of entries (C97_order); elements with the same made id say the same unless md5 sums agree (C97_content), so for whatever is read (C97_parsed), and an element in a list of another never has its id (C97_parent); REFUTED: elements that say the same have the same id (C97_unique_refuted), and elements with numbers that are not finite, or different bytes that are no characters, share one whatever they say (C97_other_refuted)"
  },
  {
   "property": "C98",
   "status": "partial",
   "theorems": [
    "C98_render",
    "C98_render_all",
    "C98_updated",
    "C98_diff",
    "C98_wrong",
    "C98_alone_refuted",
    "C98_after_refuted",
    "C98_before_refuted",
    "C98_silent_refuted",
    "C98_nothing_refuted",
    "C98_lost_refuted",
    "C98_same_refuted"
   ],
   "note": "proved for every command line whose flags are known, written in any of the four ways and repeated at will: render saves the sheets of the design under the name given and nothing else (C98_render), so do render_all and designs_updated for a directory with designs of different names (C98_render_all, C98_updated, which also removes the old sheets), diff_test prints zero exactly when no old sheet differs from a new one of its name (C98_diff), wrong flags and commands change nothing (C98_wrong), and all lines but one end without a panic; REFUTED: render alone panics (C98_alone_refuted), flags after the name of a design are not read (C98_after_refuted), flags before it make a flag the name of the design (C98_before_refuted), render_all without a directory for the output renders nothing and reports no failure to the shell (C98_silent_refuted), diff_test into the directory to compare, or with one that cannot be listed, counts no differences (C98_same_refuted), it prints nothing and reports no failure when the designs cannot be listed (C98_nothing_refuted), and designs_updated then has removed the old sheets without new ones (C98_lost_refuted); file system calls other than listing and making directories do not fail in the model, and the server is not modelled"
  },
  {
   "property": "C99",
   "status": "partial",
   "theorems": [
    "C99_there",
    "C99_text",
    "C99_else",
    "C99_removed",
    "C99_removed_refuted"
   ],
   "note": "proved for every map, key, value and default: the questions answer from what is under the key (C99_there, C99_text, C99_else), and removing keys without dots leaves none of them and what is under every other key, also inside maps of texts and below other keys, as long as the map is not inside itself (C99_removed); REFUTED for dotted keys: one that is there under its whole name and along its parts is still there after RemoveAll (C99_removed_refuted); times are not modelled"
  },
  {
   "property": "C100",
   "status": "partial",
   "theorems": [
    "C100_init",
    "C100_added",
    "C100_digits",
    "C100_shipped",
    "C100_reorder_refuted",
    "C100_shadowed_refuted"
   ],
   "note": "proved for all lists of factories, contexts and sequences of calls: C100_init, C100_added, C100_digits, and for the shipped lists C100_shipped, which also says that the types known are those of the models of components (Docs.v) and transforms (Factories.v); REFUTED in its last sentence: the factory of reorder is not registered (C100_reorder_refuted), and a component imported under the name of a registered type is never used (C100_shadowed_refuted)"
  },
  {
   "property": "C101",
   "status": "partial",
   "theorems": [
    "C101_fields",
    "C101_apart",
    "C101_shared_refuted",
    "C101_as_map",
    "C101_printed",
    "C101_messages",
    "C101_static"
   ],
   "note": "proved for nested maps as JSON gives them (C101_fields, C101_as_map), for all sequences of calls (C101_printed, C101_messages, and C101_static for static fields that are not maps), and for logs with static fields also the last sentence (C101_apart); REFUTED in its last sentence for logs without static fields, whose messages keep the caller's own map (C101_shared_refuted); maps inside slices are shared also otherwise, see C28"
  }
 ]
}