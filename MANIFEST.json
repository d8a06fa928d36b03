{
 "claims": [
  {
   "property": "C01",
   "status": "proved",
   "theorems": [
    "C01_add_exact",
    "C01_add_exact_same_timescale"
   ],
   "note": "TTime::add over Z with 32-bit wrap written out."
  },
  {
   "property": "C02",
   "status": "proved",
   "theorems": [
    "C02_no_drift"
   ],
   "note": "Iterated add."
  },
  {
   "property": "C03",
   "status": "proved",
   "theorems": [
    "C03_divisible",
    "C03_zero_period"
   ],
   "note": "C++ truncating 64-bit division."
  },
  {
   "property": "C04",
   "status": "partial",
   "theorems": [
    "C04_exact_or_error_refuted",
    "C04_lcm_overflow_refuted",
    "C04_exact_iff_representable_partial"
   ],
   "note": "The statement is false of the code (silent wrap, silent lcm overflow): refuted with witnesses. The partial theorem says when the sum is exact."
  },
  {
   "property": "C05",
   "status": "partial",
   "theorems": [
    "C05_zero_timescale_refuted",
    "C05_positive_timescale_partial",
    "C05_rejected_unchanged",
    "C05_rejects"
   ],
   "note": "False for tables whose second entry is a multiple of 2^32: refuted. Proved for all other assignments; rejected assignments change nothing."
  },
  {
   "property": "C06",
   "status": "partial",
   "theorems": [
    "C06_cache_invisible_partial",
    "C06_signed_zero_refuted",
    "C06_impure_refuted"
   ],
   "note": "Proved for every Lua interpreter whose chunks are pure functions of t and histories that never evaluate at -0. Refuted at -0 for 1/t, and for scripts that count their calls. Lua is a parameter."
  },
  {
   "property": "C07",
   "status": "partial",
   "theorems": [
    "C07_rejected_partial",
    "C07_refused_iff",
    "C07_side_effect_refuted"
   ],
   "note": "Proved for pure chunks. Refuted for rejected scripts that change a Lua global during the trial call. Lua is a parameter."
  },
  {
   "property": "C08",
   "status": "proved",
   "theorems": [
    "C08_rigid",
    "C08_distances",
    "C08_one_motion"
   ],
   "note": "Over the reals with real sine and cosine, bodies with a non-zero perimeter."
  },
  {
   "property": "C09",
   "status": "proved",
   "theorems": [
    "C09_closed",
    "C09_area",
    "C09_reverse",
    "C09_first_corner",
    "C09_translate",
    "C09_triangle",
    "C09_cut"
   ],
   "note": "Over the reals; centre and moment for a non-zero perimeter (otherwise 0/0). Triangles and cutting along a diagonal determine centre and moment."
  },
  {
   "property": "C10",
   "status": "partial",
   "theorems": [
    "C10_even_odd_partial",
    "C10_unique",
    "C10_shortcut_refuted"
   ],
   "note": "False at the height of a corner: the ray counts a tip once and says inside, the shortcut outside. Proved over the reals for all other heights, with the nearest segment returned."
  },
  {
   "property": "C11",
   "status": "partial",
   "theorems": [
    "C11_critical",
    "C11_accepted_partial",
    "C11_nan_range_refuted",
    "C11_loading"
   ],
   "note": "False for a NaN collision bound, which passes. Everything else proved for all doubles."
  },
  {
   "property": "C12",
   "status": "proved",
   "theorems": [
    "C12_no_object_lost",
    "C12_in_place"
   ],
   "note": ""
  },
  {
   "property": "C13",
   "status": "proved",
   "theorems": [
    "C13_cover",
    "C13_names"
   ],
   "note": ""
  },
  {
   "property": "C14",
   "status": "proved",
   "theorems": [
    "C14_summaries",
    "C14_root"
   ],
   "note": "Over the reals, as the property says."
  },
  {
   "property": "C15",
   "status": "proved",
   "theorems": [
    "C15_find",
    "C15_leaf"
   ],
   "note": ""
  },
  {
   "property": "C16",
   "status": "partial",
   "theorems": [
    "C16_terminates_partial",
    "C16_terminates_exact_partial",
    "C16_no_body_refuted",
    "C16_far_refuted",
    "C16_infinite_refuted"
   ],
   "note": "False in binary64: endless recursion for sixteen vortices at two neighbouring points in a space without bodies, for two vortices at 2^57, and for one at infinity. Proved when both limits are at least 2^-50 of the largest coordinate, and in exact arithmetic."
  },
  {
   "property": "C17",
   "status": "proved",
   "theorems": [
    "C17_numbers",
    "C17_columns"
   ],
   "note": ""
  },
  {
   "property": "C18",
   "status": "partial",
   "theorems": [
    "C18_found_again_partial",
    "C18_self_test_partial",
    "C18_found_again_refuted",
    "C18_shrink_refuted"
   ],
   "note": "False when two variables exchange columns, and after a shrink (exit 4). Proved for histories that never assign a variable while another column holds it."
  },
  {
   "property": "C19",
   "status": "partial",
   "theorems": [
    "C19_cached_inverse_partial",
    "C19_collision_refuted",
    "C19_zero_hash_refuted",
    "C19_large_refuted",
    "C19_shrink_refuted"
   ],
   "note": "False: 134608.0 and 222134.0 collide, one matrix hashes to the initial value 0, all matrices of 16384 to 23170 rows hash to 0 because the length overflows int, and a shrink destroys the inverse but keeps its hash. Proved without these. LAPACK and BLAS are parameters."
  },
  {
   "property": "C20",
   "status": "proved",
   "theorems": [
    "C20_rows",
    "C20_any_order"
   ],
   "note": "Undefined exactly when a special segment number is out of range."
  },
  {
   "property": "C21",
   "status": "proved",
   "theorems": [
    "C21_balance",
    "C21_dead"
   ],
   "note": "Over the reals. A step is any composition of a replacement of segment circulations, shedding, reading of forces, a change of vortices that keeps their total (merging), motion and removal."
  },
  {
   "property": "C22",
   "status": "proved",
   "theorems": [
    "C22_limits",
    "C22_rounding_refuted",
    "C22_outside_refuted"
   ],
   "note": "Exact arithmetic as stated. Outside the stated conditions it fails, with witnesses in double precision: rounding carries a body past its limit, and a body at rest outside its range gives a step of minus infinity."
  },
  {
   "property": "C23",
   "status": "proved",
   "theorems": [
    "C23_survivors",
    "C23_heat"
   ],
   "note": "For any number type, including IEEE doubles."
  },
  {
   "property": "C24",
   "status": "partial",
   "theorems": [
    "C24_bounce_partial",
    "C24_two_passes",
    "C24_refuted"
   ],
   "note": "False in general: any other free degree of freedom of any body drops the bounce row; proved exactly when it is present."
  },
  {
   "property": "C25",
   "status": "partial",
   "theorems": [
    "C25_open",
    "C25_kept",
    "C25_step",
    "C25_history",
    "C25_resumes",
    "C25_times",
    "C25_removed_body_refuted",
    "C25_profile_refuted",
    "C25_float_refuted"
   ],
   "note": "Histories of any length of writing, flushing and resuming keep all datasets aligned and ordered while no body is removed, the same profile setting is used and times stay distinct as floats; false without each of the three."
  },
  {
   "property": "C26",
   "status": "partial",
   "theorems": [
    "C26_when",
    "C26_partial",
    "C26_nul_refuted"
   ],
   "note": "Lossless for any number of bodies up to their order, for texts without NUL and expressions accepted again; the temperature is compared as a number. A NUL in a text cuts it. Sources of the space before stay if the file has none (C28)."
  },
  {
   "property": "C27",
   "status": "partial",
   "theorems": [
    "C27_partial",
    "C27_order",
    "C27_refuted"
   ],
   "note": "True exactly up to 100 bodies; above it the loaded order is another permutation with the roots kept."
  },
  {
   "property": "C28",
   "status": "partial",
   "theorems": [
    "C28_partial",
    "C28_refuted"
   ],
   "note": "True for everything but the sources, which stay if the file has none."
  },
  {
   "property": "C29",
   "status": "proved",
   "theorems": [
    "C29_circulation",
    "C29_count",
    "C29_moment",
    "C29_pair"
   ],
   "note": "Over the reals, for vortices and heat particles."
  },
  {
   "property": "C30",
   "status": "partial",
   "theorems": [
    "C30_radius",
    "C30_heat_radius",
    "C30_all",
    "C30_wall",
    "C30_bound",
    "C30_fields",
    "C30_segment",
    "C30_fallback_refuted"
   ],
   "note": "In binary64, for every list of near nodes. False: without segments in the near nodes the search over all bodies need not find the nearest one."
  },
  {
   "property": "C31",
   "status": "partial",
   "theorems": [
    "C31_antisymmetric_partial",
    "C31_moments_partial",
    "C31_coincident_partial",
    "C31_unequal_refuted",
    "C31_alone_refuted",
    "C31_three_refuted"
   ],
   "note": "Over the reals for equal radii. False for unequal radii; in binary64 a single vortex without bodies gets NaN."
  },
  {
   "property": "C32",
   "status": "partial",
   "theorems": [
    "C32_vortices_partial",
    "C32_underflow_refuted",
    "C32_centre_refuted",
    "C32_heat_refuted"
   ],
   "note": "Over the reals for vortices. False for heat particles, for a vortex at a segment's centre and for circulations near the smallest number."
  },
  {
   "property": "C33",
   "status": "partial",
   "theorems": [
    "C33_round_trip_partial",
    "C33_round_trip_refuted"
   ],
   "note": "False for a corner 2^24 steps from the origin: the coordinates collapse and the spacing check rejects the file. Proved for corners within 4096 steps, up to 2^24 columns and 2^30 words; NaN bits are preserved."
  },
  {
   "property": "C34",
   "status": "partial",
   "theorems": [
    "C34_reads_inside_refuted",
    "C34_bad_cast_refuted",
    "C34_reads_inside_partial"
   ],
   "note": "False for a string with one row: data[2N+2] is read past the end. A header of 2^31 overflows the conversion to int. Proved for strings of two rows and more."
  },
  {
   "property": "C35",
   "status": "partial",
   "theorems": [
    "C35_order_statistic_partial",
    "C35_defined_refuted"
   ],
   "note": "False when the rank is 0: v[-1] is read. Otherwise proved for finite values and up to 2^24 of them, for any std::partial_sort that meets its contract; the product n*p is the one rounded to float."
  },
  {
   "property": "C36",
   "status": "proved",
   "theorems": [
    "C36_edges_conserved"
   ],
   "note": "Over float points up to equality of coordinates (+0 = -0). Merging duplicates the joining point, i.e. adds zero-length edges only."
  },
  {
   "property": "C37",
   "status": "proved",
   "theorems": [
    "C37_even_crossings",
    "C37_no_inner_end",
    "C37_level_equal_value_refuted"
   ],
   "note": "IEEE binary32 arithmetic, fields without gaps, up to 2^24 nodes per side and values up to 2^126. The refuted theorem shows the condition on the level is needed."
  },
  {
   "property": "C38",
   "status": "proved",
   "theorems": [
    "C38_shared_vertical_edge",
    "C38_shared_horizontal_edge",
    "C38_level_equal_value_refuted"
   ],
   "note": "IEEE binary32. The horizontal edge excludes edges cut by a gap, where the two sides differ on purpose. The refuted theorem shows that the level must differ from the end values."
  },
  {
   "property": "C39",
   "status": "proved",
   "theorems": [
    "C39_cylinder",
    "C39_clockwise",
    "C39_closed"
   ],
   "note": "Over the reals: the points lie exactly on the circle; number of corners for dl is the nearest integer to 2 pi R/dl."
  },
  {
   "property": "C40",
   "status": "partial",
   "theorems": [
    "C40_complete",
    "C40_error",
    "C40_undefined",
    "C40_empty_refuted",
    "C40_double_refuted"
   ],
   "note": "Over the reals with NaN. The size can be rounded to 0 pixels and pictures too long for int are undefined behaviour; over doubles a range near 1e17 absorbs the length."
  },
  {
   "property": "C41",
   "status": "partial",
   "theorems": [
    "C41_mavg",
    "C41_avg_partial",
    "C41_sd_partial",
    "C41_zero_bound_refuted",
    "C41_double_refuted",
    "C41_sd_double_refuted"
   ],
   "note": "Over the reals. A bound of 0 is taken for none; over doubles the running sum of mavg drifts and sd can be the root of a negative number: both refuted by witnesses."
  },
  {
   "property": "C42",
   "status": "partial",
   "theorems": [
    "C42_even_partial",
    "C42_odd_refuted"
   ],
   "note": "Over the reals, for even spans; for odd spans, so also for the default of 5, 0 is printed for every table."
  },
  {
   "property": "C43",
   "status": "proved",
   "theorems": [
    "C43_nodup",
    "C43_calls"
   ],
   "note": ""
  },
  {
   "property": "C44",
   "status": "proved",
   "theorems": [
    "C44_table",
    "C44_error"
   ],
   "note": "Cells and headings without newline and tabulator."
  },
  {
   "property": "C45",
   "status": "partial",
   "theorems": [
    "C45_schedule",
    "C45_zero_step_refuted"
   ],
   "note": "Schedule and number of steps proved for every run whose times stay representable; with dt=0 the loop never ends (refuted)."
  },
  {
   "property": "C46",
   "status": "partial",
   "theorems": [
    "C46_number_stored_refuted",
    "C46_undefined_refuted",
    "C46_integers_partial",
    "C46_near_partial"
   ],
   "note": "False for 0.29 (stores 28/100): refuted over IEEE doubles. Integers exact, every number within one unit of the timescale."
  },
  {
   "property": "C47",
   "status": "partial",
   "theorems": [
    "C47_distinct_files_refuted",
    "C47_file_number_partial"
   ],
   "note": "False for a start time off the grid of dt: refuted. Proved when the time is a multiple of dt."
  },
  {
   "property": "C48",
   "status": "proved",
   "theorems": [
    "C48_lines_maximal"
   ],
   "note": "Any order of segments."
  },
  {
   "property": "C49",
   "status": "partial",
   "theorems": [
    "C49_terminates_refuted",
    "C49_infinite_refuted",
    "C49_terminates_partial"
   ],
   "note": "False when vmin+dv rounds to vmin, or vmin is -infinity: the loop never ends. Proved when dv is at least 2^-52 of the level magnitudes."
  },
  {
   "property": "C50",
   "status": "partial",
   "theorems": [
    "C50_bounds_partial",
    "C50_nan_refuted"
   ],
   "note": "False when the first node is NaN. Proved for finite values."
  },
  {
   "property": "C51",
   "status": "proved",
   "theorems": [
    "C51_transpose_any_order",
    "C51_direct_solution"
   ],
   "note": "LAPACK is a parameter."
  },
  {
   "property": "C52",
   "status": "partial",
   "theorems": [
    "C52_same_place_partial",
    "C52_stale_layer_refuted",
    "C52_outside_box_refuted"
   ],
   "note": "False twice: the contour computed before a motion is used after it, and points outside the body's own box are rejected. Proved while the body does not move."
  },
  {
   "property": "C53",
   "status": "partial",
   "theorems": [
    "C53_separated_partial",
    "C53_beside_the_top_refuted"
   ],
   "note": "False for a point beside the top of a house-shaped body at its exact height. Proved for heights without corners."
  },
  {
   "property": "C54",
   "status": "partial",
   "theorems": [
    "C54_complete_lines_partial",
    "C54_no_flags_partial",
    "C54_sticky_refuted",
    "C54_bad_line"
   ],
   "note": "False: a line without a flag takes the flag of an earlier line. Proved for files that give all flags or none. sscanf is a parameter."
  },
  {
   "property": "C55",
   "status": "proved",
   "theorems": [
    "C55_heat_balance"
   ],
   "note": "Over the reals."
  },
  {
   "property": "C56",
   "status": "partial",
   "theorems": [
    "C56_layer_partial",
    "C56_crop_refuted",
    "C56_other_particle_refuted"
   ],
   "note": "True when shedding directly follows the motion step. False in the simulation: cropping (and sorting) the list in between makes the number refer to another particle or past the end."
  },
  {
   "property": "C57",
   "status": "partial",
   "theorems": [
    "C57_no_collision_partial",
    "C57_collision_refuted"
   ],
   "note": "True without a collision. On a collision the motion uses the shortened step but the clock advances by the full one."
  },
  {
   "property": "C58",
   "status": "proved",
   "theorems": [
    "C58_attached",
    "C58_distance"
   ],
   "note": "Over the reals, exact sine and cosine."
  },
  {
   "property": "C59",
   "status": "partial",
   "theorems": [
    "C59_defined",
    "C59_ring_never_ends",
    "C59_ring_refuted"
   ],
   "note": "Defined when the roots form no ring and every body has corners. On a ring of roots, which nothing prevents, the loop does not end."
  },
  {
   "property": "C60",
   "status": "partial",
   "theorems": [
    "C60_at_rest_partial",
    "C60_full_fill",
    "C60_refuted"
   ],
   "note": "Over the reals. True for speeds of exactly zero. False for speeds below the threshold 1e-10, for every distance moved."
  },
  {
   "property": "C61",
   "status": "proved",
   "theorems": [
    "C61_momentum",
    "C61_angular_momentum"
   ],
   "note": "Over the reals, for every exact solution."
  },
  {
   "property": "C62",
   "status": "partial",
   "theorems": [
    "C62_offset_partial",
    "C62_speeds",
    "C62_refuted"
   ],
   "note": "Over the reals. True along x and for the angle; false along y when the root turns and the body is displaced along x."
  },
  {
   "property": "C63",
   "status": "proved",
   "theorems": [
    "C63_circulation",
    "C63_at_infinity"
   ],
   "note": "Over the reals, for every exact solution."
  },
  {
   "property": "C64",
   "status": "proved",
   "theorems": [
    "C64_stream",
    "C64_contour",
    "C64_exit"
   ],
   "note": "Over the reals, exact logarithm."
  },
  {
   "property": "C65",
   "status": "partial",
   "theorems": [
    "C65_outside_partial",
    "C65_core_refuted"
   ],
   "note": "Over the reals. Equal unless the whole segment is within the core; there the signs are opposite."
  },
  {
   "property": "C66",
   "status": "partial",
   "theorems": [
    "C66_without_merging_partial",
    "C66_refuted"
   ],
   "note": "True without merging; false when vortices of two nodes merge."
  },
  {
   "property": "C67",
   "status": "proved",
   "theorems": [
    "C67_error",
    "C67_centre"
   ],
   "note": "Over the reals; equality at the centre and an explicit bound elsewhere."
  },
  {
   "property": "C68",
   "status": "partial",
   "theorems": [
    "C68_step",
    "C68_refuted"
   ],
   "note": "Over the reals for particles away from the source. In binary64 a source of strength zero at the particle gives NaN."
  },
  {
   "property": "C69",
   "status": "partial",
   "theorems": [
    "C69_no_influence",
    "C69_refuted"
   ],
   "note": "False: loaded vortices have no core radius yet and do not act on the segments near them. Nothing of the claim is proved; the positive theorem says what happens instead."
  },
  {
   "property": "C70",
   "status": "partial",
   "theorems": [
    "C70_no_more_bodies_partial",
    "C70_refuted"
   ],
   "note": "True while no body is added; with one body more the handle vectors are indexed past their end."
  },
  {
   "property": "C71",
   "status": "partial",
   "theorems": [
    "C71_partial",
    "C71_same_file",
    "C71_cut_refuted",
    "C71_percent_refuted",
    "C71_negative_refuted"
   ],
   "note": "True for captions up to 45 characters without % and steps below one million; all steps share one file for captions of 55 to 231 characters, and steps at negative times may share one too."
  },
  {
   "property": "C72",
   "status": "partial",
   "theorems": [
    "C72_lost",
    "C72_refuted"
   ],
   "note": "False: friction and heat collected by the segments are not stored. The positive theorem says they are always zero after loading."
  },
  {
   "property": "C73",
   "status": "partial",
   "theorems": [
    "C73_force",
    "C73_moment_partial",
    "C73_refuted"
   ],
   "note": "The force is right; the moment is the one about the origin, equal to that about the axis only if the force is parallel to the line from the origin to the axis. Over the reals."
  },
  {
   "property": "C74",
   "status": "proved",
   "theorems": [
    "C74_totals",
    "C74_run"
   ],
   "note": "Over the reals."
  },
  {
   "property": "C75",
   "status": "proved",
   "theorems": [
    "C75_no_flow"
   ],
   "note": "Over the reals; velocity of the sources and flux of the free vortices are parameters."
  },
  {
   "property": "C76",
   "status": "proved",
   "theorems": [
    "C76_force",
    "C76_moment"
   ],
   "note": "Over the reals."
  },
  {
   "property": "C77",
   "status": "proved",
   "theorems": [
    "C77_spring",
    "C77_bounce"
   ],
   "note": "Over the reals; which of the three cases applies is C24."
  },
  {
   "property": "C78",
   "status": "partial",
   "theorems": [
    "C78_origin_partial",
    "C78_condition",
    "C78_refuted"
   ],
   "note": "True for bodies whose circulation balance is one of the equations; false for bodies with the Kutta condition, whose force changes by any amount."
  },
  {
   "property": "C79",
   "status": "partial",
   "theorems": [
    "C79_cylinder",
    "C79_semicyl",
    "C79_savonius",
    "C79_box",
    "C79_gpj",
    "C79_ellipse",
    "C79_parallelogram_partial",
    "C79_plate_partial",
    "C79_angle_refuted",
    "C79_plate_refuted",
    "C79_fraction_refuted",
    "C79_huge_refuted"
   ],
   "note": "Over doubles with libm as arguments. Not so: a parallelogram without d and a plate with radii differing by more than L end in undefined behaviour, N is cut to an integer silently and N = 2^63 passes the range check."
  },
  {
   "property": "C80",
   "status": "partial",
   "theorems": [
    "C80_polygon",
    "C80_parallelogram",
    "C80_lost_refuted"
   ],
   "note": "Over the reals. True when no piece is shorter than half the spacing; a shorter piece gets no corner and its vertex is lost."
  },
  {
   "property": "C81",
   "status": "partial",
   "theorems": [
    "C81_semicyl_partial",
    "C81_parallelogram_partial",
    "C81_savonius_partial",
    "C81_plate_partial",
    "C81_exact_refuted",
    "C39_cylinder"
   ],
   "note": "Exact for the cylinder; for the others within half a corner per piece, the exact claim is false."
  },
  {
   "property": "C82",
   "status": "partial",
   "theorems": [
    "C82_parallelogram_partial",
    "C82_semicyl_partial",
    "C82_half_refuted"
   ],
   "note": "True when no piece is shorter than half the spacing; otherwise the area can be half of it."
  },
  {
   "property": "C83",
   "status": "proved",
   "theorems": [
    "C83_ends",
    "C83_ellipse",
    "C83_tips",
    "C83_steps"
   ],
   "note": "Over the reals."
  },
  {
   "property": "C84",
   "status": "partial",
   "theorems": [
    "C84_append_partial",
    "C84_error_partial",
    "C84_all_or_nothing_refuted",
    "C84_own_object_refuted",
    "C84_reference",
    "C84_assign"
   ],
   "note": "A bad element leaves the ones before it in the list, so all-or-nothing is false; appending an object of the list itself can read freed memory."
  },
  {
   "property": "C85",
   "status": "proved",
   "theorems": [
    "C85_count",
    "C85_alive",
    "C85_equal",
    "C85_root",
    "C85_set_root"
   ],
   "note": ""
  },
  {
   "property": "C86",
   "status": "partial",
   "theorems": [
    "C86_assign",
    "C86_accepts",
    "C86_exact_partial",
    "C86_degrees",
    "C86_degrees_refuted",
    "C86_cut_refuted"
   ],
   "note": "Which member changes is proved for all; the value read back is the one assigned except for integers beyond 32 bits, fractions given for integers or in the table of a time, texts with a zero byte and degrees, where the exact claim is false."
  },
  {
   "property": "C87",
   "status": "partial",
   "theorems": [
    "C87_index",
    "C87_ipairs_partial",
    "C87_erase_in_loop_refuted",
    "C87_objects"
   ],
   "note": "For lists shorter than 2^31 - 1; a loop that erases skips elements."
  },
  {
   "property": "C88",
   "status": "partial",
   "theorems": [
    "C88_zeros_partial",
    "C88_range_refuted",
    "C88_heading_refuted"
   ],
   "note": "Over the reals and tables of numbers. A zero before the range is printed if the row after it is inside; a heading line changes the outcome."
  },
  {
   "property": "C89",
   "status": "proved",
   "theorems": [
    "C89_drv",
    "C89_total"
   ],
   "note": "Over the reals."
  },
  {
   "property": "C90",
   "status": "partial",
   "theorems": [
    "C90_awk_partial",
    "C90_shift_refuted"
   ],
   "note": "For the rows in which no earlier dataset has ended; below the end of one the later columns move left."
  },
  {
   "property": "C91",
   "status": "partial",
   "theorems": [
    "C91_info_partial",
    "C91_streaks_refuted",
    "C91_unlabelled_refuted",
    "C91_exit_refuted",
    "C91_list",
    "C91_no_file"
   ],
   "note": "The two streak numbers are exchanged, a body without label or segments crashes the program, and a file without a space goes on to print a table."
  },
  {
   "property": "C92",
   "status": "proved",
   "theorems": [
    "C92_mesh"
   ],
   "note": "Over the reals with NaN, for sizes that fit int."
  },
  {
   "property": "C93",
   "status": "partial",
   "theorems": [
    "C93_moved",
    "C93_no_body_refuted"
   ],
   "note": "Over the reals; with a frame of a body and no bodies the program reads past the list."
  },
  {
   "property": "C94",
   "status": "partial",
   "theorems": [
    "C94_roundtrip_partial",
    "C94_same_plot_partial",
    "C94_name_refuted",
    "C94_size_refuted"
   ],
   "note": "For archives whose entries fit on the stack and without a file called plot.gp; both exceptions are refuted for all such files."
  },
  {
   "property": "C95",
   "status": "partial",
   "theorems": [
    "C95_script_partial",
    "C95_data_partial",
    "C95_velocity_partial",
    "C95_style_refuted",
    "C95_same_label_refuted",
    "C95_dataset_refuted"
   ],
   "note": "For distinct labels without quotes that are not a text of the script or the name of a dataset; without each of these conditions the claim is false by a witness."
  },
  {
   "property": "C96",
   "status": "partial",
   "theorems": [
    "C96_stream_partial",
    "C96_velocity_partial",
    "C96_walls_refuted",
    "C96_source_refuted"
   ],
   "note": "Over the reals. The stream function is that of the whole flow; the velocity is too when there are no sources, the bodies rest and carry no circulation. Otherwise false: circulation of the walls is missing in the velocity and sources are weakened by the time step."
  },
  {
   "property": "C97",
   "status": "partial",
   "theorems": [
    "C97_cell_partial",
    "C97_right_refuted",
    "C97_wide_refuted",
    "C97_rounding_refuted"
   ],
   "note": "Over the reals, for sources not to the right of the picture, at most 65536 columns and rows; each of the three conditions is needed by a witness, rounding can lose a source."
  },
  {
   "property": "C98",
   "status": "partial",
   "theorems": [
    "C98_far",
    "C98_after_partial",
    "C98_after_refuted",
    "C98_corner_refuted",
    "C98_nan_refuted"
   ],
   "note": "Over the reals. The limit is proved; the other parts are false: after a map of vorticity the circulation of the walls counts twice, the first corner matters, and at a vortex the value is NaN."
  },
  {
   "property": "C99",
   "status": "partial",
   "theorems": [
    "C99_values",
    "C99_refused_partial",
    "C99_nan_refuted",
    "C99_again_refuted",
    "C99_frame_refuted",
    "C99_wall_refuted"
   ],
   "note": "For the first evaluation and settings without NaN. A second evaluation ignores changed settings, the frame of a missing body is undefined behaviour, and the vorticity at a wall is 1/2 without any vortex."
  },
  {
   "property": "C100",
   "status": "partial",
   "theorems": [
    "C100_moving_partial",
    "C100_turning_partial",
    "C100_refuted"
   ],
   "note": "Over the reals. True when the body does not turn; for every turning body and every point beside a wall false: q2-q1 has the wrong sign, the error is twice the turning speed times the segment."
  },
  {
   "property": "C101",
   "status": "partial",
   "theorems": [
    "C101_read_partial",
    "C101_ordinary_partial",
    "C101_written_partial",
    "C101_special_refuted"
   ],
   "note": "Everything is loaded as written but the number of the special segment, which is never set: false for every file whose special segment is not the one of a new body."
  },
  {
   "property": "C102",
   "status": "partial",
   "theorems": [
    "C102_bin_partial",
    "C102_txt_partial",
    "C102_version_partial",
    "C102_cut_refuted",
    "C102_short_refuted",
    "C102_missing_refuted",
    "C102_rest_refuted",
    "C102_word_refuted"
   ],
   "note": "Whole lists are read completely, a missing text list and a wrong version are reported. Otherwise false: a cut list is filled with copies of the last object, a file of 24 bytes gives 1024 vortices, missing binary lists, rests of records and words are ignored."
  },
  {
   "property": "C103",
   "status": "partial",
   "theorems": [
    "C103_rows_partial",
    "C103_resume_refuted",
    "C103_word_refuted"
   ],
   "note": "True for one run and a file of numbers; a resumed run writes rows of steps already made again, sensors behind a word are dropped."
  },
  {
   "property": "C104",
   "status": "partial",
   "theorems": [
    "C104_box",
    "C104_gpj",
    "C104_plate_partial"
   ],
   "note": "Over the reals. For plates whose circles do not lie in one another by more than touching (|R2-R1| <= L); otherwise there are no common tangents."
  },
  {
   "property": "C105",
   "status": "partial",
   "theorems": [
    "C105_read_partial",
    "C105_old_file_refuted",
    "C105_version_refuted"
   ],
   "note": "For attributes of the expected types. Missing values are read as zero, which is not the value of a new body for springs, density and collision limits: every such file loads as a body without holder and mass that cannot be saved. Tables of a later version lose all conditions at the walls."
  },
  {
   "property": "C106",
   "status": "partial",
   "theorems": [
    "C106_partial",
    "C106_refuted"
   ],
   "note": "For at most one hundred bodies, texts without NUL and accepted expressions as in C26, and bodies whose area, centre and moment belong to their corners; a list of sources may only be empty if that of the space loaded over is. With 101 bodies the tables change places."
  },
  {
   "property": "C107",
   "status": "partial",
   "theorems": [
    "C107_partial",
    "C107_separator",
    "C107_table",
    "C107_dash_refuted"
   ],
   "note": "For arguments that do not begin with a dash, or behind --. Others end the program or are taken for options of vvflow. getopt_long is modelled after its manual."
  },
  {
   "property": "C108",
   "status": "partial",
   "theorems": [
    "C108_valid",
    "C108_order_partial",
    "C108_order_refuted",
    "C108_abbreviation_refuted"
   ],
   "note": "Values: all. Order: options about different things may be swapped; but the colour scale is switched on again by a field behind --no-colorbox, and --U is taken for --Ux. Infinite --eps is accepted."
  },
  {
   "property": "C109",
   "status": "partial",
   "theorems": [
    "C109_name",
    "C109_distinct",
    "C109_file",
    "C109_same_refuted"
   ],
   "note": "For inputs with an extension in one directory. Inputs of the same name in different directories (the usual results of two calculations), or without extension but with a dot, give one picture."
  },
  {
   "property": "C110",
   "status": "partial",
   "theorems": [
    "C110_partial",
    "C110_twice",
    "C110_refuted"
   ],
   "note": "Without bodies of given temperature or flux. With such a body false for every calculation: each of its segments sheds the heat of the step once more after resuming."
  },
  {
   "property": "C111",
   "status": "partial",
   "theorems": [
    "C111_partial",
    "C111_refused",
    "C111_unnamed",
    "C111_missing",
    "C111_returned",
    "C111_long_refuted",
    "C111_percent_refuted",
    "C111_step_refuted",
    "C111_destroyed_refuted"
   ],
   "note": "For names of at most 63 characters without % and NUL. Longer names are cut, % is a format, a time step of zero is undefined, and a root outside the space is found only after the old file was cut to nothing. Saves without a name and loads of missing files abort the program. Failures of the file system are not modelled."
  },
  {
   "property": "C112",
   "status": "partial",
   "theorems": [
    "C112_partial",
    "C112_freed",
    "C112_refuted"
   ],
   "note": "While the list or a live variable holds the body. Otherwise the vector leads to freed memory, from then on for ever; a script that keeps only the vector does that."
  },
  {
   "property": "C113",
   "status": "partial",
   "theorems": [
    "C113_partial",
    "C113_last",
    "C113_calls",
    "C113_refuted"
   ],
   "note": "If no corner was assigned since the last motion. In general the values are those at the last motion: assigning a corner does not update them."
  },
  {
   "property": "C114",
   "status": "proved",
   "theorems": [
    "C114_boxes",
    "C114_any",
    "C114_eight"
   ],
   "note": "Over the reals, with the summaries as built; that they are not always recomputed after merging is C66."
  },
  {
   "property": "C115",
   "status": "partial",
   "theorems": [
    "C115_partial",
    "C115_refuted"
   ],
   "note": "For points in the box of the leaf the look-up ends in. Other points can be beside a far vortex: a speed above 300000 instead of less than 1."
  },
  {
   "property": "C116",
   "status": "proved",
   "theorems": [
    "C116_total",
    "C116_after",
    "C116_body",
    "C116_first",
    "C116_kutta_refuted"
   ],
   "note": "Over the reals, for any solution of the system; velocities are arbitrary, sorting and merging keep the circulation. If all bodies have Kutta conditions the balance does not hold: C116_kutta_refuted."
  },
  {
   "property": "C117",
   "status": "partial",
   "theorems": [
    "C117_partial",
    "C117_error",
    "C117_eight",
    "C117_refused_refuted",
    "C117_abort_refuted"
   ],
   "note": "Status 0 also follows a calculation refused because of re <= 0 (C117_refused_refuted), so it does not show that the calculation was made. A missing script and a failed S:load, also inside pcall, abort the program (C117_abort_refuted). Loading, saving and the work of a step are oracles that may succeed, throw or exit."
  },
  {
   "property": "C118",
   "status": "proved",
   "theorems": [
    "C118_tree",
    "C118_velocity",
    "C118_particle",
    "C118_radii",
    "C118_diffusion",
    "C118_rounding_refuted"
   ],
   "note": "Over the reals, for coordinates within the bounds the tree starts from. In binary64 two particles a unit apart fall on one point when moved far away: C118_rounding_refuted. What a move does to the solution of the linear system and to the forces is the subject of C78."
  },
  {
   "property": "C119",
   "status": "partial",
   "theorems": [
    "C119_frame_partial",
    "C119_damped",
    "C119_refuted"
   ],
   "note": "Over the reals. False for damped springs: the damping acts on the speed of the body itself and not on its speed relative to its holder (C119_damped says by how much, C119_refuted has a witness). Pending collisions stop a body at speed zero and are excluded."
  },
  {
   "property": "C120",
   "status": "partial",
   "theorems": [
    "C120_velocity",
    "C120_series",
    "C120_diffusion",
    "C120_radius",
    "C120_bounds",
    "C120_merging_refuted",
    "C120_solution",
    "C120_sinks",
    "C120_flux"
   ],
   "note": "Over the reals. False for merging: MEpsilonFast.cpp:36 adds one to a length, so the distance at which vortices merge depends on the unit of length (C120_bounds says exactly when it does not, C120_merging_refuted has a witness). The absolute thresholds of the code (1e-10 for speeds of bodies and distances, the largest number for distances) enter as hypotheses."
  },
  {
   "property": "C121",
   "status": "partial",
   "theorems": [
    "C121_partial",
    "C121_cut_refuted",
    "C121_refuted",
    "C121_retry_refuted",
    "C121_other_name",
    "C121_load"
   ],
   "note": "True if the roots of all bodies are in their space. Otherwise the save is refused after the file was created, the file stays open, and the end of the program completes it with the bodies in front of the refused one: it loads without an error. Saving again under this name aborts the program, under another name it works. Failed loads abort the program. Assumes that HDF5 closes open files when a program ends and refuses to truncate an open file."
  },
  {
   "property": "C122",
   "status": "partial",
   "theorems": [
    "C122_velocity",
    "C122_series",
    "C122_diffusion",
    "C122_friction",
    "C122_radii",
    "C122_quarter",
    "C122_tiny_refuted",
    "C122_system_partial",
    "C122_sinks",
    "C122_flux",
    "C122_slid_refuted"
   ],
   "note": "Over the reals. False in two places. A vector counts as zero if the sum of its coordinates is below 1e-10, which depends on the axes: C122_tiny_refuted has two vortices that repel each other in some directions only (a right angle does not matter, C122_quarter). fillSpeedXEquation takes the arm of a held body from its holder, fillSpeedYEquation from where it is now: C122_slid_refuted has a body that slid along its rail, and C122_system_partial excludes such bodies. The linear system is turned by right angles only, since springs act along the axes. Collisions are not covered: the rows of the springs are planned in the order x, y, angle."
  },
  {
   "property": "C123",
   "status": "partial",
   "theorems": [
    "C123_partial",
    "C123_run",
    "C123_quote_refuted",
    "C123_command_refuted"
   ],
   "note": "For names without apostrophes; the name is put between apostrophes as it is, so a name with one breaks the script or adds commands to it (two witnesses). Columns are assumed to hold no separators. With points but no lines asked for the style is still linespoints, with line type 0. argparse and gnuplot are not modelled; how gnuplot splits a script is in Quick/Spec.v."
  },
  {
   "property": "C124",
   "status": "partial",
   "theorems": [
    "C124_usage",
    "C124_partial",
    "C124_refuted"
   ],
   "note": "False: the shell compares texts, so the usage is also shown for all numbers of arguments that begin with the digit 1, such as 10 (C124_usage says exactly when). Assumes that digits are ordered as usual in the locale. The rest of the script is not modelled."
  },
  {
   "property": "C125",
   "status": "partial",
   "theorems": [
    "C125_velocity",
    "C125_series",
    "C125_diffusion",
    "C125_friction",
    "C125_radii_partial",
    "C125_order_refuted",
    "C125_axis"
   ],
   "note": "Over the reals, with any log with log(1/a) = -log a and any atan2 that does not depend on the size. False for the radii: the walls of the mirrored body are passed in the other order, and the search for the nearest wall passes over nine walls after one that is not nearer, so it finds another one (C125_order_refuted: three walls, the radius of a vortex is twice as large in the mirror). C125_radii_partial has the walls in the same order. The linear system is not mirrored."
  },
  {
   "property": "C126",
   "status": "partial",
   "theorems": [
    "C126_system_partial",
    "C126_balance",
    "C126_order_refuted",
    "C126_velocity",
    "C126_series",
    "C126_diffusion",
    "C126_friction"
   ],
   "note": "Over the reals, without a collision. False for the linear system: the first body without the Kutta condition gets the circulation that is left over at infinity, the others keep theirs, so with two such bodies the order matters (C126_order_refuted: two bodies and a vortex) unless the circulations add up; C126_balance proves that no other solution is kept. The search for the nearest wall depends on the order of the walls too (C125_order_refuted)."
  },
  {
   "property": "C127",
   "status": "partial",
   "theorems": [
    "C127_system",
    "C127_velocity_partial",
    "C127_series",
    "C127_friction",
    "C127_sources_refuted",
    "C127_rest_refuted"
   ],
   "note": "Over the reals, without a collision. False for sources: the strength is in the denominator too (C127_sources_refuted), so the sources are the same in both flows. False for bodies slower than 1e-10, which are left out (C127_rest_refuted); C127_velocity_partial asks that such bodies do not move at all. Diffusive velocities are quotients and are not mixed."
  },
  {
   "property": "C128",
   "status": "partial",
   "theorems": [
    "C128_mask",
    "C128_output_partial",
    "C128_unmatched",
    "C128_comment_partial",
    "C128_rest",
    "C128_output_refuted",
    "C128_comment_refuted"
   ],
   "note": "The output and the first file must have plain names (not empty, no blanks, no pattern characters). Otherwise false: 'my film.mp4' becomes two outputs, an empty name none, a pattern the files that match it (C128_output_refuted); the comment of 'im 1.png' is read from im and 1.png (C128_comment_refuted)."
  },
  {
   "property": "C129",
   "status": "proved",
   "theorems": [
    "C129_system",
    "C129_stays",
    "C129_step",
    "C129_causes",
    "C129_velocity",
    "C129_friction"
   ],
   "note": "Over the reals. The steps assume that each linear system has one solution; what is solved is then zero. Heat and streak particles do not matter."
  },
  {
   "property": "C130",
   "status": "partial",
   "theorems": [
    "C130_near_partial",
    "C130_table_partial",
    "C130_exact_partial",
    "C130_order",
    "C130_order_table",
    "C130_special",
    "C130_word",
    "C130_vector",
    "C130_object",
    "C130_near_refuted",
    "C130_time_refuted",
    "C130_columns_partial",
    "C130_width_partial",
    "C130_width_refuted"
   ],
   "note": "printf is modelled as rounding the exact value to even, as glibc does. Different doubles can print alike, and a nan is narrower than a column."
  },
  {
   "property": "C131",
   "status": "partial",
   "theorems": [
    "C131_names",
    "C131_body_names",
    "C131_complete_partial",
    "C131_body_complete",
    "C131_space_partial",
    "C131_body_partial",
    "C131_caption_refuted",
    "C131_text_refuted",
    "C131_mixed_refuted",
    "C131_digits_refuted"
   ],
   "note": "The caption is not printed; apostrophes, mixed walls and further digits are lost. The lines for slip and root are in C91."
  },
  {
   "property": "C132",
   "status": "partial",
   "theorems": [
    "C132_levels_partial",
    "C132_given",
    "C132_flat_refuted",
    "C132_nan_refuted",
    "C132_infinite_refuted"
   ],
   "note": "False for a map with one value only: the step is zero, XIsoline throws and nothing catches it. Also false with NaN or infinite values."
  },
  {
   "property": "C133",
   "status": "partial",
   "theorems": [
    "C133_velocity_partial",
    "C133_velocity_refuted",
    "C133_vorticity_partial",
    "C133_given",
    "C133_vorticity_refuted"
   ],
   "note": "False for velocities of one sign and for maps with 50 or fewer nodes with vorticity (C35: rank zero). Assumed: gnuplot wants the places in order, and an ostream prints doubles as %g does."
  },
  {
   "property": "C134",
   "status": "partial",
   "theorems": [
    "C134_levels_partial",
    "C134_point_refuted",
    "C134_narrow_refuted",
    "C134_far_refuted"
   ],
   "note": "False for a range of one number (exception), of neighbouring numbers (no end) and of numbers whose difference overflows (one isobar), which the option all takes."
  },
  {
   "property": "C135",
   "status": "partial",
   "theorems": [
    "C135_near",
    "C135_exact",
    "C135_order",
    "C135_word",
    "C135_special",
    "C135_circle_partial",
    "C135_vanishing",
    "C135_circle_refuted",
    "C135_labels_refuted",
    "C135_time_refuted"
   ],
   "note": "Six places are too few for small pictures: circles vanish; one place is too few for labels of narrow scales. printf is modelled as rounding the exact value to even, as glibc does."
  },
  {
   "property": "C136",
   "status": "partial",
   "theorems": [
    "C136_outline_partial",
    "C136_empty_refuted",
    "C136_far_refuted",
    "C136_vortices",
    "C136_color_partial",
    "C136_color_refuted"
   ],
   "note": "Coordinates must fit into floats. False for bodies without corners, far away bodies and tiny circulations. The bytes of floats are not modelled."
  },
  {
   "property": "C137",
   "status": "partial",
   "theorems": [
    "C137_holders",
    "C137_springs",
    "C137_tip_partial",
    "C137_tip_refuted"
   ],
   "note": "The error of the end of the arrow is relative to the place of the axis, not to the length of the spring (C137_tip_refuted). Assumed: an ostream prints doubles as %g does."
  }
 ]
}
