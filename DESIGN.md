# Formal model of vvflow in Rocq (Coq 8.16.1)

The C++ sources in `/repo` are read as text. Every function of interest is
transcribed as a small total Gallina function whose comment cites file and
lines. Theorems are then proved about the transcription.

## Layout

* `rocq/theories/Base/*.v` — numbers, lists, small tactics.
* `rocq/theories/<Part>/Model.v` — definitions only, each citing `/repo`.
* `rocq/theories/<Part>/Spec.v` — independent specifications (when one is needed).
* `rocq/theories/<Part>/Proofs.v` — lemmas.
* `rocq/theories/<Part>/Properties.v` — the theorems named in `MANIFEST.json`,
  concrete `Example`s beside each, and `Print Assumptions` under each.

## Numbers

C++ `double`/`float` code is modelled over a record `Num` of operations
(`+ - * / sqrt < <= == ...`). One transcription has several readings:

* arbitrary `Num` — no law is assumed at all, so structural theorems
  (permutation, coverage, row alignment, merging of lines ...) hold for IEEE
  doubles including NaN and infinities;
* `F64` — IEEE-754 binary64, round to nearest even, from Flocq
  (`BinarySingleNaN`); used where NaN, infinities or signed zero decide;
* `RNum` — real numbers; "in exact arithmetic" in a property means this one;
* `QNum` — rationals, for examples that compute.

Integers: `Z`, with wrap-around modulo 2^32 / 2^64 written out where the
C++ type is fixed width. Undefined behaviour (out-of-range index, dereference of
`end()`, division by zero) is a distinct outcome of the model, not a default.

External code (Lua, LAPACK, HDF5, libm functions) appears as a parameter of the
section that uses it, with the exact assumption made on it as a hypothesis of
the theorem.

## Plan per property

| id | model | proof |
|----|-------|-------|
| C01 | `TTime::lcm`, `add` over Z with wrap | loop invariant `result * lcm(x,y) = lcm(x0,y0)`; strong induction on the measure |
| C02 | iterated `add` | induction on n from C01 |
| C03 | `divisibleBy` with C++ truncating division | from C01's lcm lemma |
| C04 | same | expected false: witness (`_refuted`) |
| C05 | `luavvd_setTTime` table/string branches | induction over assignments; table branch expected false (`_refuted`), strings proved |
| C06 | TEval object as a state machine, Lua as an oracle from text to partial function | invariant over histories |
| C07 | same | same |
| C08 | corners, `move`, `doUpdateSegments`, `doFillProperties` over R | algebra on cyclic sums |
| C09 | same | same |
| C10 | `isPointInContour` over an ordered field | parity of crossings outside the box; chord argument for the disc |
| C11 | `validate` over F64 | case analysis |
| C12 | `DistributeContent`, `DivideNode` on index ranges over any Num | permutation by loop invariant |
| C13 | `FindNearNodes` on trees with an arbitrary criterion | induction on tree |
| C14 | CMp/CMm over R | induction on tree |
| C15 | `findNode` | induction, any Num with total order laws |
| C16 | subdivision with fuel | measure; expected false for infinite coordinates |
| C17 | `EnumerateBodies` | induction |
| C18 | solution-slot map as a finite map machine | expected false for permutations; true for fresh assignments |
| C19 | hash-keyed cache, LAPACK as oracle | invariant under "no collision"; refutation without it |
| C20 | `fillMatrix` as a list of row writes | permutation of 0..n-1 |
| C21 | shed / move_and_clean over R | sum algebra |
| C22 | collision step over R | minimum over bodies |
| C23 | erase loop | filter characterisation |
| C24 | collision pointer through fill passes | expected false: witness |
| C25 | HDF5 log as lists of rows | induction over runs |
| C26 | HDF5 file as attribute maps and datasets | round trip |
| C27 | names as strings, `std::map` order | expected false: witness with 101 bodies |
| C28 | `load` clears | expected false for sources: witness |
| C29 | MergeVortexes and caller loop over R | sum invariant |
| C30 | `epsv` selection loop | induction |
| C31 | biot_savart over R | algebra |
| C32 | guarded sums over R | inequalities |
| C33 | write/read over words | round trip |
| C34 | parser with UB outcome | expected false: witness |
| C35 | percentile | order statistic of sorted list; expected false for small n*p |
| C36 | commit/merge on lists of points | multiset of edges |
| C37 | inrange over F64 | case analysis |
| C38 | shared-edge expressions over arbitrary Num | equality |
| C39 | generators over R | trigonometry |
| C40 | optparse completion over R | field |
| C41 | awk programs as folds | invariant of the circular buffer |
| C42 | awk program as fold | expected false for odd span |
| C43 | list operations | invariant |
| C44 | table printer | list algebra |
| C45 | main loop skeleton | composition of C02, C03 |
| C46 | `luavvd_setTTime` number branch over F64 | Flocq rounding; expected false |
| C47 | `save` name from the time and dt | arithmetic; expected false off the grid |
| C48 | the merge loop of isolines | no two lines left share an end, induction over segments |
| C49 | level loop over F64 | lower bound of an ulp; expected false for small dv |
| C50 | min/max scans over F32 | order lemma; expected false for NaN first |
| C51 | transposition as a set of writes in any order | commuting writes |
| C52, C53 | `isPointInHeatLayer`, `isPointInContour` | state machine for the cached contour; ray parity |
| C54 | body text files, sscanf as a parameter | induction over lines |
| C55, C56 | heat particles of Flow | sum algebra; index after cropping, expected false |
| C57–C59 | `move_and_clean` | sums over R; ring of roots as a loop without end |
| C60 | conditions for refilling the matrix | expected false below the threshold |
| C61–C63, C75–C78 | rows of the system as linear forms over R | each solved row is the physical law, written in the Spec on its own |
| C62 | rigid equations | algebra; expected false along y |
| C64, C65 | influence of a segment, exact ln and atan | telescoping over the contour; case analysis |
| C66, C67 | summaries and far field of the tree | sums; first-order bound |
| C68 | source term | inequality over R, NaN over F64 |
| C69, C72 | load then continue | expected false: witness |
| C70, C25 | step log as tables, any history of write/flush/resume | invariant over histories |
| C71 | file name through `snprintf` into a buffer of 64 | string lengths |
| C73, C74 | `calc_forces`, `zero_forces` | induction over segments and over steps |
| C79–C83, C39 | generators over R and F64, curves as lists of pieces | parameter tables; counts; shoelace formula |
| C43, C84, C85, C87 | Lua lists with shared ownership and references | invariant over sequences of calls |
| C86 | getters and setters | one case per member from a table |
| C41, C42, C88, C89 | awk scripts as folds over records | independent window definitions |
| C44, C90, C91 | vvxtract's table and information | list algebra, awk's field splitting |
| C40, C92, C93 | optparse and meshes over reals with NaN, and F64 | case analysis of 16 option sets |
| C94, C95 | archives as lists of entries, script with name replacement | string search lemmas |
| C96 | `psi` and `velocity` over R, principal angle | derivatives of sums; uniqueness of the gradient |
| C97 | gaps and cell corners | the jump of the angle is 2 pi exactly where the gap is counted |
| C98 | pressure as a sum over vortices and sheets | limits; permutation of corners, expected false |
| C99 | `evaluate` as writes in any order | permutation of nodes |
| C100 | `linear_influence` over complex numbers | antiderivative, uniqueness of the integral; expected false for turning bodies |
| C101 | a file as bytes, members as bytes, a reader with a position | induction over the table and over the chapters; expected false for the special segment |
| C102 | short reads keep what the variable had | reading behind the end; expected false in most cases |
| C103 | rows as lists | induction over sensors; resumed runs expected false |
| C104 | `box_pieces`, `gpj_pieces`, `plate_pieces` as before | split of the list of pieces, trigonometry of the tangents |
| C105 | `load` on any file | inversion of the reader; expected false for missing parameters of bodies |
| C106 | `save`, `load` as for C26 | from C26 and C27 with the temperature of the wall kept exactly; expected false for more than one hundred bodies |
| C107 | `getopt` (Opt/Getopt.v), `flow_parse` (Opt/Model.v) | induction over the items said; expected false for arguments with a dash |
| C108 | `plot_parse` | invariant `valid` over the calls of getopt; every accepted option is an update of its own fields; expected false for the colour scale |
| C109 | `target_name` | induction over texts; expected false for equal names in two directories |
| C110 | `heat_resumed` (Store/ModelHeat.v) over `heat_shed` (Flow) and `load` (Store) | loaded bodies have no heat collected and no particle in their layers, induction over bodies and segments; expected false with given temperature or flux |
| C111 | `script_save`, `script_load` (Store/ModelScript.v) | from C26 and the printing of names (C71); expected false for long names, %, refusals after opening |
| C112 | `view_get`, `view_set`, `vrun` (Lua/ModelViews.v) | invariant: every vector leads to a member of the right type; a freed body stays freed; expected false when only the vector is kept |
| C113 | `shape_run` (Lua/ModelShape.v) over `move` (Body) | from the lemmas of C08/C09 on refreshed bodies; expected false after assigning a corner |
| C114 | `far_of_particle` (Vortex/ModelFar.v) over `find_near`, `masses` (Tree) and `far_taylor` (Vortex) | every node's box holds its vortices (induction over `divide`); moving one-signed vortices to their centre costs the second moment only; with C67 and the far criterion |
| C115 | `velocity_of_vortices` over `find_node` | as C114 without the expansion; expected false outside the boxes, where the criterion says nothing |
| C116 | `kstep`, `ksteps` (System/SpecKelvin.v) over `solution` (System) and `heat_shed`, `vortex_shed`, `zero_forces`, `move_and_clean` (Flow) | the rows of steady bodies (C63) fix segments plus rotation; follow dead circulation through absorption and burying per body; telescoping over steps; expected false with Kutta conditions only |
| C117 | `vvflow`, `exec`, `simulate_call`, `finish_main` (Opt/ModelMain.v) over `flow_parse` (Opt) and `run` (Time) | induction over the script, a tree of calls with pcall; every logged calculation is complete or refused; expected false for refused calculations, which give status 0 |
| C118 | `velocity_at`, `particle_velocity` (Map/ModelPlace.v) over `build`, `find_near` (Tree), the kernels and `calc_epsilon` (Vortex) and the influences of bodies (Map) | every function commutes with moving its arguments, by induction over lists and trees; only differences of coordinates occur; expected false with rounding |
| C119 | `eqn_of`, `fill_in` (System) with `seen` (System/SpecFrame.v) | every row has the same coefficients and its right side grows by the row applied to the added speeds; one lemma per kind of row; expected false for damped springs |
| C120 | `velocity`, `far_taylor`, `vort_velocity`, `heat_velocity`, `epsv`, `criterion` (Map, Vortex), `eqn_of`, `node_flux` (System) with the scaled states of Map/SpecSimilar.v and System/SpecSimilar.v | each row of the system is multiplied by one positive factor when every unknown is multiplied by its unit; one lemma per kernel and per kind of row; expected false for merging |
| C121 | `written`, `script_save`, `script_load`, `end_program`, `script_saves` (Store/ModelScript.v) | induction over the saves of the script with the invariant that no file is open; the names of the bodies written before the refusal; expected false for foreign roots |
| C122 | `velocity`, `far_taylor`, `vort_velocity`, `heat_velocity`, `friction`, `calc_epsilon` (Map, Vortex), `eqn_of`, `plan` (System) with the turned states of Map/SpecTurn.v and System/SpecTurn.v | every kernel commutes with the rotation; for the system the rows of x and y change places, one lemma per kind of row; expected false for tests of sizes by coordinates and where the equations for x and y differ |
| C123 | `script`, `main` of Quick/Model.v; `commands`, `unquote`, `setting` of Quick/Spec.v read the script as gnuplot does | texts without separators are read to their end, quoted texts too; expected false for names with apostrophes |
| C124 | `shows_usage` of Quick/Model.v | first digit of the decimal text against the powers of ten; expected false |
| C125 | `velocity`, `far_taylor`, `vort_velocity`, `heat_velocity`, `friction`, `calc_epsilon` (Map, Vortex) with the mirrored states of Map/SpecMirror.v | every kernel commutes with the mirror up to the sign of the strength; sums do not depend on the order of the walls; the quotient in the logarithm is turned over; expected false for the search of the nearest wall, which depends on the order |
| C126 | `plan`, `fill_in` and every equation (System), with the renumbered states of System/SpecNumber.v; `velocity`, `far_taylor`, `vort_velocity`, `heat_velocity`, `friction` (Map, Vortex) | each planned equation of the renumbered state is planned for the old one, up to which special segment gets the condition at infinity; sums over the bodies are permuted; expected false for two bodies without the Kutta condition |
| C127 | every equation (System) with the mixed states of System/SpecMix.v; `velocity`, `linear_influence`, `far_taylor`, `friction` (Map, Vortex) with Map/SpecMix.v | both states have the same plan; each row is linear in the unknowns with the same coefficients, except the column of a body that does not turn, where the unknown is known; sums over particles by induction on triples of lists; expected false for sources |
| C128 | word splitting, pathname expansion and the argument list (Quick/ModelEncode.v), ls, exiv2 and the file names being parameters | splitting of words joined by blanks by induction; plain words are not expanded; expected false for names with blanks, since `$OUTPUT` and `$FIRSTFILE` are not quoted |
| C129 | `eqn_of`, `fill_in` (System), `heat_shed`, `vortex_shed`, `zero_forces`, `move_and_clean` (Flow), `velocity` (Map), `friction` (Vortex) with the steps of System/SpecRest.v | every right side is a sum of products with a zero; the solution is zero by uniqueness; every part of a step keeps place, speed zero and circulations zero, by induction over the lists; the converse reads the rows of a zero solution |
| C130 | `show_g`, `show_e`, `lua_number`, `show_vec`, `show_vec3`, `show_obj` (Print) | a reader of decimal numbers in Spec.v; the digits are those of the value rounded to p digits; a bound for rounding, exactness and monotony over the reals, a case per notation for reading |
| C131 | `space_rows`, `body_rows`, `info_line` (Print/ModelInfo.v) with `space_members`, `tbody_members` (Lua) | a reader of Lua assignments in SpecInfo.v; the tables compared row by row; each kind of value read back with C130 |
| C132 | `steps`, `streamlines` (Isoline/ModelSteps.v) with `levels`, `accepts` (Isoline), `field_min`, `field_max` (Field) | different floats differ by 2^-25 of their size, so a double resolves a 33rd of the range; the error of each sum is bounded and adds up to less than half a step; expected false for constant maps |
| C133 | `limit`, `positions`, `velocity_scale`, `vorticity_limit` (Plot/ModelScale.v) with `percentile`, `field_min`, `field_max` (Field), `num` (Print) | division and printing keep the order (C130); the ranks of C35 are between 1 and a fiftieth plus one; counting; expected false for positive velocities and empty vorticity |
| C134 | `takes_range`, `isobars` (Isoline/ModelSteps.v) with `levels`, `accepts` (Isoline) | the error bound of C132, for doubles; expected false for ranges of one number, of neighbours, and beyond the largest double |
| C135 | `whole`, `show_f`, `time_label`, `end_label`, `vortex_circles`, `holder_circles`, `spring_heads` (Print/ModelFixed.v) with `complete` (Plot) | rounding of C130 at a fixed place, digits read back; expected false for small radii and narrow scales |
| C136 | `point`, `outline`, `vortex_row`, `vortex_rows`, `color` (Plot/ModelData.v) | conversion to float is rounding to nearest, which is monotone and keeps the smallest float; expected false for empty and far bodies and tiny circulations |
| C137 | `ax`, `ay`, `holder_line`, `spring_line`, `body_holders`, `body_springs` (Plot/ModelHolders.v) with `num` (Print) | lines are free of line ends (C130_word); errors of printing (C130) and of one subtraction add up; expected false relative to the length of the spring |

"Expected false" means: reading the code suggests the claim fails; the theorem
will be a refutation with a witness, plus the part that does hold.

## Trusted base

1. The Coq 8.16.1 kernel. No kernel check is switched off, there are no axioms of
   our own, no `Admitted`, no functors, no plugins.
2. The axioms that `Print Assumptions` lists under each theorem. They all come from
   the standard library:
   * `ClassicalDedekindReals.sig_forall_dec`, `ClassicalDedekindReals.sig_not_dec`
     (the real numbers),
   * `FunctionalExtensionality.functional_extensionality_dep` (used by the reals),
   * `Classical_Prop.classic` (used by limits, by the trigonometric functions and by
     Flocq).

   Which theorem needs which is listed below, as printed.
3. Flocq's definitions of binary64 and binary32 (`BinarySingleNaN`) as the meaning of
   IEEE arithmetic. Flocq adds no axioms.
4. The transcriptions: each definition cites the lines it was read from; that it says
   the same is checked by reading only. The code is never built or run.
5. The compiler: the repository sets only `-std=c++11 -Weffc++ -Wall -fopenmp`, so no
   fast-math, and x86-64 doubles are taken to be evaluated in strict binary64.

### What is modelled

| directory | code | simplified |
|-----------|------|------------|
| Time | `TTime.hpp`, time members in `getset.cpp`, main loop of `vvflow.cpp`, `Space::save` schedule | step body is a parameter of the loop |
| Eval | `TEval.cpp` | Lua is a parameter |
| Body | `TVec.hpp`, `TBody.cpp`, `load_txt` | `sscanf` is a parameter |
| Tree | `TSortedTree.cpp` | ranges as lists, and again as positions permuted in place |
| Vortex | `MEpsilonFast.cpp`, `MDiffusiveFast.cpp`, `MConvectiveFast.cpp:21-170` | libm as parameters |
| System | `MConvectiveFast.cpp:217-1017`, `EnumerateBodies` | linear-source influence is a parameter there and a definition in `Map/ModelLinear.v` |
| Matrix | `TMatrix.cpp` | LAPACK and BLAS are parameters |
| Flow | `MFlowmove.cpp`, `zero_forces` | |
| Forces | `calc_forces`, `zero_forces` | |
| Log | `MStepdata.cpp` | HDF5 file as tables |
| Store | `TSpace.cpp`, `TSpace_save_hdf.cpp`, `TSpace_load_hdf.cpp`, `vvhdf.cpp`, `space_save`, `space_load` | HDF5 file as attributes and datasets |
| Isoline, Field, Map | `XIsoline.cpp`, `XField.cpp`, `XVelocity.cpp`, `XVorticity.cpp`, `XPressure.cpp`, `XStreamfunction.cpp` | values of Map not rounded to float |
| Gen | `utils/vvflow/gen_*.cpp` | Lua tables as lists, memory unbounded |
| Lua | `lua_bodylist.cpp`, `lua_objlist.cpp`, `lua_tbody.cpp`, `lua_tobj.cpp`, `lua_tvec*.cpp`, `lua_space.cpp`, `lua_teval.cpp`, `getset.cpp` | a script is its sequence of calls; Lua is 5.2.4 (`ExternalProjects.cmake:3`) on 64 bits: numbers are doubles |
| Awk | `utils/scripts/vvawk.*` | `printf` keeps the number |
| Xtract | `vvxtract.cpp` | HDF5 and `printf` are parameters |
| Plot | `gnuplotter.cpp`, `gnuplotter.hpp`, `optparse.cpp:396-441`, `main_hdf` | archive library keeps names and contents |
| Opt | the three `optparse.cpp`, argument table of `vvflow.cpp`, `target_name` of `vvplot` | `getopt_long` after its manual |
| Old | `TSpace_load_v13.cpp`, `load_list_txt`, `load_list_bin`, `lua_objlist.cpp:32-47`, `sensors.cpp` | texts as numbers and words, `TEval` and conversion to float are parameters |

Erasing from a list inside a loop (`it = l.erase(it)` idioms) is taken to work as the
C++ standard says.

### What is not modelled

* `stacktrace`-like helpers.
* `linenoise.c`: compiled, but no function of the programs calls it.
* Messages and help texts of the programs; `sscanf` and the parts of `getopt_long` its manual does not promise.
* `printf` itself: assumed is that glibc prints the exact value rounded to even; the lines of `vvxtract -i` with measures of a body (axis, area, moments) are not modelled.
* The arguments of `gpquick` (argparse), what ls, exiv2 and ffmpeg do in `vvencode`, backslashes and shell options there, and the CMake files.
* HDF5 itself: assumed are that attributes and datasets read back as written, that it closes open files when a program ends and refuses to truncate an open one.
* Failures of HDF5, libarchive and the operating system (full disk, lost processes).
* Parallel execution, except where a theorem quantifies over the order (C51, C99);
  elsewhere the loops are run in order.

### Axioms by theorem

* Closed under the global context (143): C01_add_exact, C01_add_exact_same_timescale, C02_no_drift, C03_divisible, C03_zero_period, C04_exact_or_error_refuted, C04_lcm_overflow_refuted, C04_exact_iff_representable_partial, C12_no_object_lost, C12_in_place, C13_cover, C13_names, C15_leaf, C17_numbers, C17_columns, C18_found_again_partial, C18_self_test_partial, C18_found_again_refuted, C18_shrink_refuted, C19_cached_inverse_partial, C19_collision_refuted, C19_zero_hash_refuted, C19_large_refuted, C19_shrink_refuted, C20_rows, C20_any_order, C23_survivors, C23_heat, C24_bounce_partial, C24_two_passes, C24_refuted, C25_open, C25_kept, C25_step, C25_history, C25_resumes, C25_removed_body_refuted, C25_profile_refuted, C36_edges_conserved, C43_nodup, C43_calls, C44_table, C44_error, C48_lines_maximal, C51_transpose_any_order, C51_direct_solution, C52_same_place_partial, C54_complete_lines_partial, C54_no_flags_partial, C54_sticky_refuted, C54_bad_line, C56_layer_partial, C57_no_collision_partial, C59_defined, C59_ring_never_ends, C70_no_more_bodies_partial, C70_refuted, C84_append_partial, C84_error_partial, C84_all_or_nothing_refuted, C84_own_object_refuted, C84_reference, C84_assign, C85_count, C85_alive, C85_root, C85_set_root, C87_index, C87_ipairs_partial, C87_erase_in_loop_refuted, C87_objects, C90_awk_partial, C90_shift_refuted, C91_info_partial, C91_streaks_refuted, C91_unlabelled_refuted, C91_exit_refuted, C94_roundtrip_partial, C94_same_plot_partial, C94_name_refuted, C94_size_refuted, C95_script_partial, C95_data_partial, C95_style_refuted, C95_same_label_refuted, C95_dataset_refuted, C99_values, C99_again_refuted, C99_frame_refuted, C101_read_partial, C101_ordinary_partial, C101_written_partial, C101_special_refuted, C102_bin_partial, C102_txt_partial, C102_version_partial, C102_cut_refuted, C102_short_refuted, C102_missing_refuted, C102_rest_refuted, C102_word_refuted, C103_rows_partial, C103_resume_refuted, C103_word_refuted, C107_partial, C107_separator, C107_table, C107_dash_refuted, C108_abbreviation_refuted, C109_name, C109_distinct, C109_file, C109_same_refuted, C85_equal, C123_partial, C123_run, C123_quote_refuted, C123_command_refuted, C124_usage, C124_partial, C124_refuted, C91_list, C91_no_file, C95_velocity_partial, C128_mask, C128_output_partial, C128_comment_partial, C128_rest, C128_output_refuted, C128_comment_refuted, C130_special, C130_word, C130_vector, C130_object, C130_width_refuted, C131_names, C131_body_names, C131_complete_partial, C131_body_complete, C135_word, C135_special, C136_empty_refuted, C128_unmatched.

* `sig_forall_dec`, `sig_not_dec`, `classic`, `functional_extensionality_dep` (254): C05_zero_timescale_refuted, C05_positive_timescale_partial, C05_rejected_unchanged, C05_rejects, C06_cache_invisible_partial, C06_signed_zero_refuted, C06_impure_refuted, C07_rejected_partial, C07_refused_iff, C07_side_effect_refuted, C10_shortcut_refuted, C11_critical, C11_accepted_partial, C11_nan_range_refuted, C11_loading, C15_find, C16_terminates_partial, C16_no_body_refuted, C16_far_refuted, C16_infinite_refuted, C22_rounding_refuted, C22_outside_refuted, C25_times, C25_float_refuted, C26_when, C26_partial, C26_nul_refuted, C27_partial, C27_order, C27_refuted, C28_partial, C28_refuted, C30_radius, C30_heat_radius, C30_all, C30_wall, C30_fields, C30_segment, C30_fallback_refuted, C31_alone_refuted, C31_three_refuted, C32_underflow_refuted, C32_centre_refuted, C33_round_trip_partial, C33_round_trip_refuted, C34_reads_inside_refuted, C34_bad_cast_refuted, C34_reads_inside_partial, C35_order_statistic_partial, C35_defined_refuted, C37_even_crossings, C37_no_inner_end, C37_level_equal_value_refuted, C38_shared_vertical_edge, C38_shared_horizontal_edge, C38_level_equal_value_refuted, C39_cylinder, C39_clockwise, C39_closed, C40_double_refuted, C41_double_refuted, C41_sd_double_refuted, C45_schedule, C45_zero_step_refuted, C46_number_stored_refuted, C46_undefined_refuted, C46_integers_partial, C46_near_partial, C47_distinct_files_refuted, C47_file_number_partial, C49_terminates_refuted, C49_infinite_refuted, C49_terminates_partial, C50_bounds_partial, C50_nan_refuted, C52_stale_layer_refuted, C52_outside_box_refuted, C53_beside_the_top_refuted, C56_crop_refuted, C56_other_particle_refuted, C57_collision_refuted, C59_ring_refuted, C60_at_rest_partial, C60_full_fill, C60_refuted, C61_momentum, C61_angular_momentum, C62_offset_partial, C62_speeds, C62_refuted, C63_circulation, C63_at_infinity, C64_stream, C64_contour, C65_outside_partial, C65_core_refuted, C66_without_merging_partial, C66_refuted, C68_refuted, C69_no_influence, C69_refuted, C71_partial, C71_same_file, C71_cut_refuted, C71_percent_refuted, C72_lost, C72_refuted, C75_no_flow, C76_force, C76_moment, C77_spring, C77_bounce, C78_origin_partial, C78_condition, C78_refuted, C79_cylinder, C79_semicyl, C79_savonius, C79_box, C79_gpj, C79_ellipse, C79_parallelogram_partial, C79_plate_partial, C79_angle_refuted, C79_plate_refuted, C79_fraction_refuted, C79_huge_refuted, C80_polygon, C80_parallelogram, C80_lost_refuted, C81_semicyl_partial, C81_parallelogram_partial, C81_savonius_partial, C81_plate_partial, C81_exact_refuted, C39_cylinder, C82_parallelogram_partial, C82_semicyl_partial, C82_half_refuted, C83_ends, C83_ellipse, C83_tips, C86_assign, C86_accepts, C86_exact_partial, C86_degrees_refuted, C86_cut_refuted, C96_stream_partial, C96_velocity_partial, C96_walls_refuted, C96_source_refuted, C97_cell_partial, C97_right_refuted, C97_wide_refuted, C97_rounding_refuted, C98_nan_refuted, C99_nan_refuted, C100_moving_partial, C100_turning_partial, C100_refuted, C104_box, C104_gpj, C104_plate_partial, C105_read_partial, C105_old_file_refuted, C105_version_refuted, C106_partial, C106_refuted, C108_valid, C108_order_partial, C108_order_refuted, C110_partial, C110_twice, C110_refuted, C111_partial, C111_refused, C111_long_refuted, C111_percent_refuted, C111_step_refuted, C111_destroyed_refuted, C112_partial, C112_freed, C112_refuted, C115_refuted, C71_negative_refuted, C116_total, C116_after, C116_body, C116_first, C116_kutta_refuted, C117_partial, C117_error, C117_eight, C117_refused_refuted, C117_abort_refuted, C118_rounding_refuted, C119_frame_partial, C119_damped, C119_refuted, C120_solution, C120_flux, C111_unnamed, C111_missing, C121_partial, C121_cut_refuted, C121_refuted, C121_retry_refuted, C121_other_name, C121_load, C122_system_partial, C122_flux, C122_slid_refuted, C126_system_partial, C126_balance, C126_order_refuted, C127_system, C83_steps, C129_system, C129_stays, C129_step, C129_causes, C130_time_refuted, C131_space_partial, C131_body_partial, C131_caption_refuted, C131_text_refuted, C131_mixed_refuted, C131_digits_refuted, C132_levels_partial, C132_given, C132_flat_refuted, C132_nan_refuted, C132_infinite_refuted, C133_velocity_partial, C133_velocity_refuted, C133_vorticity_partial, C133_vorticity_refuted, C133_given, C134_levels_partial, C134_point_refuted, C134_narrow_refuted, C134_far_refuted, C135_circle_refuted, C135_labels_refuted, C135_time_refuted, C136_outline_partial, C136_far_refuted, C136_vortices, C136_color_partial, C136_color_refuted, C111_returned, C137_springs, C137_tip_partial, C137_tip_refuted.

* `sig_forall_dec`, `sig_not_dec`, `functional_extensionality_dep` (113): C08_rigid, C08_distances, C08_one_motion, C09_closed, C09_area, C09_reverse, C09_first_corner, C09_translate, C09_triangle, C09_cut, C10_even_odd_partial, C10_unique, C14_summaries, C14_root, C16_terminates_exact_partial, C21_balance, C21_dead, C22_limits, C29_circulation, C29_count, C29_moment, C29_pair, C30_bound, C31_antisymmetric_partial, C31_moments_partial, C31_coincident_partial, C31_unequal_refuted, C32_vortices_partial, C32_heat_refuted, C40_complete, C40_error, C40_undefined, C40_empty_refuted, C41_mavg, C41_avg_partial, C41_sd_partial, C41_zero_bound_refuted, C42_even_partial, C42_odd_refuted, C53_separated_partial, C55_heat_balance, C58_attached, C58_distance, C64_exit, C67_error, C67_centre, C68_step, C73_force, C73_moment_partial, C73_refuted, C74_totals, C74_run, C86_degrees, C88_zeros_partial, C88_range_refuted, C88_heading_refuted, C89_drv, C89_total, C92_mesh, C93_moved, C93_no_body_refuted, C98_far, C98_after_partial, C98_after_refuted, C98_corner_refuted, C99_refused_partial, C99_wall_refuted, C113_partial, C113_last, C113_refuted, C114_boxes, C114_any, C114_eight, C115_partial, C118_tree, C118_velocity, C118_particle, C118_radii, C118_diffusion, C120_velocity, C120_series, C120_diffusion, C120_radius, C120_bounds, C120_merging_refuted, C120_sinks, C113_calls, C122_velocity, C122_series, C122_diffusion, C122_friction, C122_radii, C122_quarter, C122_tiny_refuted, C122_sinks, C125_velocity, C125_series, C125_diffusion, C125_friction, C125_radii_partial, C125_order_refuted, C125_axis, C126_velocity, C126_series, C126_diffusion, C126_friction, C127_velocity_partial, C127_series, C127_friction, C127_sources_refuted, C127_rest_refuted, C129_velocity, C129_friction.

* `sig_forall_dec`, `functional_extensionality_dep` (14): C130_near_partial, C130_table_partial, C130_exact_partial, C130_order, C130_order_table, C130_near_refuted, C130_columns_partial, C130_width_partial, C135_near, C135_exact, C135_order, C135_circle_partial, C135_vanishing, C137_holders.
