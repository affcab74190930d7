{"claims": [
  {"property": "C01", "status": "proved", "theorems": ["C01_layer_markers"], "note": "any arithmetic satisfying TextOK (instances: float64, reals); text read back by the independent reader"},
  {"property": "C02", "status": "proved", "theorems": ["C02_fan_policy"], "note": "any arithmetic satisfying TextOK (instances: float64, reals); text read back by the independent reader; printer starts with the fan off (header: M107)"},
  {"property": "C03", "status": "proved", "theorems": ["C03_print_speed"], "note": "any arithmetic satisfying TextOK (instances: float64, reals); text read back by the independent reader"},
  {"property": "C04", "status": "proved", "theorems": ["C04_retraction_speed", "C04_speed_after_bed_motion"], "note": "any arithmetic satisfying TextOK (instances: float64, reals); text read back by the independent reader"},
  {"property": "C05", "status": "proved", "theorems": ["C05_E_never_decreases", "C05_zero_width_refuted"], "note": "float64; guard: the two computed factors of the rate are positive, coordinates finite; without the guard refuted by a witness"},
  {"property": "C06", "status": "proved", "theorems": ["C06_extruded_length"], "note": "exact arithmetic"},
  {"property": "C07", "status": "proved", "theorems": ["C07_register", "C07_reset"], "note": "any arithmetic satisfying TextOK (instances: float64, reals); text read back by the independent reader; with retraction, paths of two or more points"},
  {"property": "C08", "status": "proved", "theorems": ["C08_bed_angles", "C08_bed_neutral"], "note": "any arithmetic satisfying TextOK (instances: float64, reals); text read back by the independent reader; angles written as numbers"},
  {"property": "C09", "status": "proved", "theorems": ["C09_C10_head_positions", "C09_drift_refuted"], "note": "positive part: any arithmetic; drift: exact arithmetic"},
  {"property": "C10", "status": "proved", "theorems": ["C09_C10_head_positions", "C10_travel_does_not_extrude"], "note": "any arithmetic satisfying TextOK (instances: float64, reals); text read back by the independent reader"},
  {"property": "C11", "status": "proved", "theorems": ["C11_well_formed", "C11_words_finite"], "note": "well-formedness for any arithmetic, finiteness of words for float64"},
  {"property": "C12", "status": "proved", "theorems": ["C12_written_numbers"], "note": "float64"},
  {"property": "C13", "status": "proved", "theorems": ["C13_flow_ignored"], "note": "any arithmetic"},
  {"property": "C14", "status": "proved", "theorems": ["C14_visits"], "note": "any arithmetic satisfying TextOK (instances: float64, reals); text read back by the independent reader"},
  {"property": "C15", "status": "proved", "theorems": ["C15_retraction_absolute"], "note": "any arithmetic satisfying TextOK (instances: float64, reals); text read back by the independent reader"},
  {"property": "C16", "status": "proved", "theorems": ["C16_roundtrip", "C16_rounding_unique", "C16_exact", "C16_stable"], "note": "float64/float32 bit level; bytes of SaveSTL through LoadSTL; every finite, infinite or NaN coordinate; NaN payloads identified"},
  {"property": "C17", "status": "proved", "theorems": ["C17_short", "C17_binary", "C17_ascii", "C17_truncated", "C17_extended", "C17_total"], "note": "all byte strings; also: no file makes LoadSTL panic"},
  {"property": "C18", "status": "proved", "theorems": ["C18_ascii", "C18_printed", "C18_text_not_binary", "C18_long_line"], "note": "any number parser; ASCII white space only (model exact for bytes below 128); a line of 65536 bytes or more stops reading with an error"},
  {"property": "C19", "status": "proved", "theorems": ["C19_outcome", "C19_silent_loss", "C19_error_is_real"], "note": "bufio.Writer of 4096 bytes with sticky error over a disk accepting any number of bytes; exact condition for an error; deferred Close not modelled"},
  {"property": "C20", "status": "proved", "theorems": ["C20_strided", "C20_no_race", "C20_copyTriangles"], "note": "Small-step model of the strided workers; every execution is bounded, never stuck, ends with the sequential result, every index written once."},
  {"property": "C21", "status": "proved", "theorems": ["C21_pipeline", "C21_arrival_irrelevant", "C21_layers"], "note": "Small-step model of producer, workers and collector with buffer capacities n; no deadlock, bounded, collected layers sorted = layers of the jobs. C21_small_buffers_deadlock shows that the capacities matter."},
  {"property": "C22", "status": "proved", "theorems": ["C22_handed", "C22_layers", "C22_handed_float"], "note": "Exact arithmetic: all meshes, directions, supports. float64: direction z, no supports (handing over)."},
  {"property": "C23", "status": "proved", "theorems": ["C23_heights", "C23_points"], "note": "Exact arithmetic; C23_points ties the points of the returned paths to the surface at that height."},
  {"property": "C24", "status": "proved", "theorems": ["C24_empty_mesh", "C24_no_layer_panics", "C24_flat_panics", "C24_panics_iff"], "note": "The first two hold in any arithmetic, the others exactly."},
  {"property": "C25", "status": "proved", "theorems": ["C25_trim"], "note": "Any arithmetic."},
  {"property": "C26", "status": "proved", "theorems": ["C26_extent", "C26_extent_empty", "C26_extent_float", "C26_infinite_height_refuted"], "note": "float64 with finite heights and exact arithmetic within the float64 range (class MinMaxOK with both instances); infinite heights: counterexample"},
  {"property": "C27", "status": "proved", "theorems": ["C27_segment"], "note": "exact arithmetic"},
  {"property": "C28", "status": "proved", "theorems": ["C28_triangle", "C28_nil_one_side", "C28_found"], "note": "exact arithmetic; the section of the whole triangle is characterised, both directions"},
  {"property": "C29", "status": "proved", "theorems": ["C29_round_places", "C29_round_places_panics", "C29_float_overflow_refuted"], "note": "exact arithmetic; float64 overflow of the int conversion shown by a witness"},
  {"property": "C30", "status": "proved", "theorems": ["C30_equal_float", "C30_equal_infinite_refuted", "C30_not_transitive_refuted", "C30_same_key_equal", "C30_equal_different_keys", "C30_key_collision_refuted"], "note": "float64 for Equal, exact arithmetic for keys, float64 key collision by witness"},
  {"property": "C31", "status": "proved", "theorems": ["C31_rigid", "C31_undo"], "note": "exact arithmetic"},
  {"property": "C32", "status": "proved", "theorems": ["C32_join3_conserves", "C32_join3_panics_on_empty", "C32_join3_sides"], "note": "any arithmetic, any permutation as outcome of the sort"},
  {"property": "C33", "status": "proved", "theorems": ["C33_join3_incomplete_refuted"], "note": "float64 witness with the insertion sort that sort.Slice uses for at most 12 elements"},
  {"property": "C34", "status": "proved", "theorems": ["C34_join2_conserves", "C34_join2_sides", "C34_join2_incomplete_refuted"], "note": "any arithmetic whose == is symmetric and transitive (instances: float64, reals), any map iteration order"},
  {"property": "C35", "status": "proved", "theorems": ["C35_minimize"], "note": "any arithmetic"},
  {"property": "C36", "status": "proved", "theorems": ["C36_spike_cut", "C36_closed_collapse"], "note": "exact arithmetic"},
  {"property": "C37", "status": "proved", "theorems": ["C37_cut_pieces", "C37_whole_kept"], "note": "any arithmetic, any permutation as outcome of the sort inside the joining; CutMesh never panics"},
  {"property": "C38", "status": "proved", "theorems": ["C38_straddling_lost", "C38_straddling_split", "C38_touching_lost"], "note": "any arithmetic for lost iff IntersectTriangle is nil; exact arithmetic for touching triangles"},
  {"property": "C39", "status": "proved", "theorems": ["C39_caps", "C39_same_count", "C39_cap_normals"], "note": "any arithmetic for winding and count, exact arithmetic for normals"},
  {"property": "C40", "status": "proved", "theorems": ["C40_split", "C40_split_any_points", "C40_small_refuted"], "note": "exact arithmetic; the exchange below the tolerance is characterised"},
  {"property": "C41", "status": "proved", "theorems": ["C41_simplify", "C41_simplify_any", "C41_short", "C41_negative_diverges", "C41_segment_refuted"], "note": "exact arithmetic; structure and termination for any arithmetic"},
  {"property": "C42", "status": "proved", "theorems": ["C42_colorize", "C42_filter"], "note": "exact arithmetic for the meaning of the flag, any arithmetic for the selection"},
  {"property": "C43", "status": "proved", "theorems": ["C43_angle_exact", "C43_opposite_zero_refuted", "C43_facing_up_flagged_refuted"], "note": "exact arithmetic; float64 witnesses for any acos"},
  {"property": "C44", "status": "proved", "theorems": ["C44_undoubled", "C44_internal_deleted", "C44_manifold_same"], "note": "any arithmetic whose == is symmetric and transitive (instances: float64, reals)"},
  {"property": "C45", "status": "proved", "theorems": ["C45_multiples", "C45_lines_cover", "C45_full_cover"], "note": "exact arithmetic; coordinates within the float64 range (MinMaxZ starts from MaxFloat64)"},
  {"property": "C46", "status": "proved", "theorems": ["C46_squares_miss"], "note": "exact arithmetic; every density from 2, every line width, every number of steps; a refutation of full coverage"},
  {"property": "C47", "status": "proved", "theorems": ["C47_fill"], "note": "any arithmetic whose < is a strict order (float64, reals); never panics when fill paths already present are nonempty; n-TopLayers without overflow"},
  {"property": "C48", "status": "proved", "theorems": ["C48_greedy", "C48_far", "C48_total"], "note": "any arithmetic whose < is a strict order (float64, reals)"},
  {"property": "C49", "status": "proved", "theorems": ["C49_on_contours", "C49_ordered"], "note": "exact arithmetic; order for vertical planes (the only ones the code uses)"},
  {"property": "C50", "status": "proved", "theorems": ["C50_walls", "C50_count_exact", "C50_defaults_float"], "note": "walls: any arithmetic whose < is a strict order; count: exact; defaults: float64"},
  {"property": "C51", "status": "proved", "theorems": ["C51_beds", "C51_executed"], "note": "commands: any arithmetic; executed: any arithmetic satisfying TextOK (instances: float64, reals); text read back by the independent reader; angles written as numbers"},
  {"property": "C52", "status": "proved", "theorems": ["C52_left_tilted"], "note": "any arithmetic satisfying TextOK (instances: float64, reals); text read back by the independent reader; angles written as numbers"},
  {"property": "C53", "status": "proved", "theorems": ["C53_analyze"], "note": "any arithmetic; any order of equal keys"},
  {"property": "C54", "status": "proved", "theorems": ["C54_levelled_iff", "C54_heights"], "note": "exact arithmetic"},
  {"property": "C55", "status": "proved", "theorems": ["C55_file", "C55_numbers", "C55_direction_iff"], "note": "text: any arithmetic; numbers: float64 with ParseFloat specified as rounding to the nearest float32; direction: exact"},
  {"property": "C56", "status": "proved", "theorems": ["C56_rotation_panics", "C56_bridge_panics"], "note": "any arithmetic"},
  {"property": "C57", "status": "proved", "theorems": ["C57_templates", "C57_nested_refuted"], "note": "the proviso on values: no opening brace; names in the map are different names in braces"},
  {"property": "C58", "status": "proved", "theorems": ["C58_middle"], "note": "exact arithmetic"},
  {"property": "C59", "status": "proved", "theorems": ["C59_winding", "C59_invariance"], "note": "exact arithmetic"},
  {"property": "C60", "status": "proved", "theorems": ["C60_centroid"], "note": "exact arithmetic"},
  {"property": "C61", "status": "proved", "theorems": ["C61_output_total"], "note": "any arithmetic"},
  {"property": "C62", "status": "proved", "theorems": ["C62_even_odd"], "note": "exact arithmetic"},
  {"property": "C63", "status": "proved", "theorems": ["C63_squares", "C63_triangles"], "note": "float64, amd64 conversion of NaN to int"},
  {"property": "C64", "status": "proved", "theorems": ["C64_vertex_refuted"], "note": "exact arithmetic; refutes C62 without general position"},
  {"property": "C65", "status": "proved", "theorems": ["C65_first_line", "C65_distance_refuted"], "note": "any arithmetic; witness in float64"},
  {"property": "C66", "status": "proved", "theorems": ["C66_heights"], "note": "exact arithmetic"},
  {"property": "C67", "status": "proved", "theorems": ["C67_one_layer"], "note": "any arithmetic"},
  {"property": "C68", "status": "proved", "theorems": ["C68_skirt"], "note": "any arithmetic"},
  {"property": "C69", "status": "proved", "theorems": ["C69_lines"], "note": "any arithmetic"},
  {"property": "C70", "status": "proved", "theorems": ["C70_no_layers"], "note": "any arithmetic"},
  {"property": "C71", "status": "proved", "theorems": ["C71_bed_returned", "C71_default_alternates"], "note": "any arithmetic satisfying TextOK (instances: float64, reals); text read back by the independent reader; angles written as numbers"},
  {"property": "C72", "status": "proved", "theorems": ["C72_profile", "C72_angles"], "note": "any arithmetic"},
  {"property": "C73", "status": "proved", "theorems": ["C73_turn_back"], "note": "exact arithmetic; meshes made with NewTriangle"},
  {"property": "C74", "status": "proved", "theorems": ["C74_ceiling"], "note": "float64"},
  {"property": "C75", "status": "proved", "theorems": ["C75_whole_file", "C75_header_text"], "note": "any arithmetic; the printer is the reader and machine of MainClaims.v; the date has no brace and no newline"},
  {"property": "C76", "status": "proved", "theorems": ["C76_fan_left_on"], "note": "any arithmetic"},
  {"property": "C77", "status": "proved", "theorems": ["C77_command"], "note": "any arithmetic; flags as parsed; products with 60 do not overflow; sequential meaning of the slicers; fuel as in the slicers"},
  {"property": "C78", "status": "proved", "theorems": ["C78_bed_still"], "note": "any arithmetic"},
  {"property": "C79", "status": "proved", "theorems": ["C79_join3_closes"], "note": "any arithmetic with ordered numbers; the sort may do anything sort.Slice is allowed to do"},
  {"property": "C80", "status": "proved", "theorems": ["C80_sections", "C80_rings", "C80_sides"], "note": "exact arithmetic, 8-decimal rounding included"},
  {"property": "C81", "status": "proved", "theorems": ["C81_closed_layers"], "note": "exact arithmetic; every legal environment whose sort sorts strict weak orders"},
  {"property": "C82", "status": "proved", "theorems": ["C82_cutter", "C82_unreadable", "C82_silent_loss", "C82_full_disk"], "note": "float64; any legal sort, any text parser"},
  {"property": "C83", "status": "proved", "theorems": ["C83_small", "C83_large", "C83_full_disk"], "note": "float64; the simplification library is an arbitrary function"},
  {"property": "C84", "status": "proved", "theorems": ["C84_bytes", "C84_local"], "note": "float64; any math.Acos; disk not full"},
  {"property": "C85", "status": "proved", "theorems": ["C85_readable", "C85_bed"], "note": "float64; whenever Analyze does not panic (C86)"},
  {"property": "C86", "status": "proved", "theorems": ["C86_crash", "C86_analyze_total_refuted"], "note": "any arithmetic; the claim that Analyze never crashes is refuted in float64 with accurate sin, cos, acos"},
  {"property": "C87", "status": "proved", "theorems": ["C87_first_plane", "C87_exact"], "note": "any arithmetic; position and tilt in exact arithmetic"},
  {"property": "C88", "status": "proved", "theorems": ["C88_upright_iff", "C88_along_refuted"], "note": "exact arithmetic"},
  {"property": "C89", "status": "proved", "theorems": ["C89_upright"], "note": "float64; sin, cos, acos arbitrary but NaN for NaN"},
  {"property": "C90", "status": "proved", "theorems": ["C90_cut_plane", "C90_bridge", "C90_levelled_iff", "C90_toward_refuted"], "note": "exact arithmetic; witness of a bridge whose plane leans away from the overhang"},
  {"property": "C91", "status": "proved", "theorems": ["C91_where"], "note": "any arithmetic"},
  {"property": "C92", "status": "proved", "theorems": ["C92_three_axes"], "note": "exact arithmetic"},
  {"property": "C93", "status": "proved", "theorems": ["C93_three_axes", "C93_exact"], "note": "any arithmetic; which models succeed in exact arithmetic"},
  {"property": "C94", "status": "proved", "theorems": ["C94_filament"], "note": "exact arithmetic"},
  {"property": "C95", "status": "proved", "theorems": ["C95_flow_ignored"], "note": "any arithmetic"},
  {"property": "C96", "status": "proved", "theorems": ["C96_fill"], "note": "any arithmetic"},
  {"property": "C97", "status": "proved", "theorems": ["C97_contours_only"], "note": "any arithmetic"},
  {"property": "C98", "status": "proved", "theorems": ["C98_cause", "C98_found", "C98_taper", "C98_spread"], "note": "exact arithmetic"},
  {"property": "C99", "status": "proved", "theorems": ["C99_upright", "C99_nested_refuted"], "note": "exact arithmetic; witness for nested contours"},
  {"property": "C100", "status": "proved", "theorems": ["C100_pieces", "C100_closed", "C100_box_refuted"], "note": "exact arithmetic; float64 witness: the parts of a cut box are open"},
  {"property": "C101", "status": "proved", "theorems": ["C101_holes", "C101_lid_refuted"], "note": "exact arithmetic; float64 witness: lids over the hole of a tube"},
  {"property": "C102", "status": "proved", "theorems": ["C102_divided", "C102_large_refuted"], "note": "exact arithmetic; float64 witness for large triangles"},
  {"property": "C103", "status": "proved", "theorems": ["C103_points", "C103_thin_refuted"], "note": "exact arithmetic; float64 witness: walls of thin strips are outside of the strip"},
  {"property": "C104", "status": "proved", "theorems": ["C104_wall"], "note": "exact arithmetic"},
  {"property": "C105", "status": "proved", "theorems": ["C105_walls", "C105_under"], "note": "exact arithmetic"},
  {"property": "C106", "status": "proved", "theorems": ["C106_upright_sides", "C106_far_refuted"], "note": "exact arithmetic; float64 witness. The expectation that walls are only left out where they meet the model is refuted"},
  {"property": "C107", "status": "proved", "theorems": ["C107_open"], "note": "exact arithmetic"},
  {"property": "C108", "status": "proved", "theorems": ["C108_meets", "C108_small", "C108_supports", "C108_slanted_refuted"], "note": "exact arithmetic; in general position; the unrestricted claim is refuted"},
  {"property": "C109", "status": "proved", "theorems": ["C109_inside", "C109_same_height", "C109_first_line", "C109_below", "C109_corner_refuted", "C109_lifted_refuted", "C109_line_refuted"], "note": "exact arithmetic; in ordinary positions; the unrestricted claim is refuted in three ways"},
  {"property": "C110", "status": "proved", "theorems": ["C110_line", "C110_layers"], "note": "exact arithmetic"},
  {"property": "C111", "status": "proved", "theorems": ["C111_layers", "C111_fill"], "note": "exact arithmetic; points nearer to the surface than the rounding, and points between nearly collinear corners, excepted"},
  {"property": "C112", "status": "proved", "theorems": ["C112_three_axes"], "note": "exact arithmetic; points nearer to the surface than the rounding, and points between nearly collinear corners, excepted"},
  {"property": "C113", "status": "proved", "theorems": ["C113_contours", "C113_three_axes"], "note": "float64; coordinates up to 10000 mm, layers of at least 1e-4 mm"},
  {"property": "C114", "status": "proved", "theorems": ["C114_parts", "C114_above"], "note": "exact arithmetic; supports off"},
  {"property": "C115", "status": "proved", "theorems": ["C115_planes", "C115_exact", "C115_flat"], "note": "any arithmetic (C115_planes); exact arithmetic for the conditions on heights"},
  {"property": "C116", "status": "proved", "theorems": ["C116_program", "C116_file"], "note": "any arithmetic; the time of day is the same in both runs"},
  {"property": "C117", "status": "proved", "theorems": ["C117_inclined", "C117_level_refuted"], "note": "exact arithmetic; the expected level layers are refuted in float64 by C117_level_refuted"},
  {"property": "C118", "status": "proved", "theorems": ["C118_commands", "C118_opposite", "C118_heights", "C118_position_overhang", "C118_position_planes"], "note": "any arithmetic (C118_commands), exact arithmetic otherwise"},
  {"property": "C119", "status": "proved", "theorems": ["C119_range", "C119_unfilled"], "note": "exact arithmetic"},
  {"property": "C120", "status": "proved", "theorems": ["C120_spacing", "C120_double", "C120_level", "C120_tilted", "C120_solid_refuted"], "note": "exact arithmetic; C120_solid_refuted shows in float64 that solid layers after the tilt need not be solid"}
]}
