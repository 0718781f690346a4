# Formal model of radiasoft/rsbeams in Rocq (Coq 8.16.1)

## 1. Approach

Every modelled Python function is a small total Gallina function that follows the
source branch by branch.  Exceptions are values (`Err KeyError`, ...), and a Python
loop that can run forever has an explicit `Diverges` outcome.  Objects with identity
(elements, beamlines, numpy views) are modelled with explicit state, so aliasing is
visible.  Each area has up to four files in `rocq/theories`:

* `X_Model.v`   the model, each definition citing file and lines of /repo;
* `X_Spec.v`    the vocabulary of the property, independent of the model's helpers;
* `X_Proofs.v`  lemmas;
* `X_Props.v`   the theorems, each followed by `Print Assumptions` and by an
  `Example` that meets its hypotheses.

When the natural statement of a property is false of the code, the theorem is called
`..._refuted` and exhibits a concrete input.  The strongest true part is proved beside it.

## 2. Plan per property

| id | modelled | proof |
|----|----------|-------|
| C01-C06 | `Converter`: constructor, unit conversion, eight start and six calculate methods, repeated `__call__`; over the reals with explicit failure for division by zero and negative square root | algebra (field, sqrt lemmas), case analysis on the 8 kinds, induction on number of calls |
| C07-C11 | `stats6d` mean, variance (Welford recurrence, with the numpy view of column 0), rms, normalise, covariance | induction on the number of particles |
| C12-C13 | Jacobi solver rotation by rotation | invariant: V orthogonal and V M V^T = input, over all sweeps |
| C14 | significant-figure rounding | real analysis of floor/log10 |
| C15-C17 | RsTwiss2D, make_twiss_dist_6d, calc_twiss6d | algebra with square roots, case split |
| C18-C19 | cdf, linspace, searchsorted (binary search), sample | induction on lists, loop invariant of the search |
| C20-C25 | StandardBunch, NonlinearBunch: properties, setters, KV/waterbag/Gaussian loops with an arbitrary random stream | invariants over histories and over accepted draws |
| C26-C27 | NonlinearInsert | trigonometric identities |
| C28-C29 | CentroidPosition | Coquelicot integrals |
| C30-C31 | phase_advance, tune_fft with arctan2 defined from atan | case analysis of quadrants |
| C32-C33 | plot helpers | induction |
| C34 | AgnosticDict | refinement to a map on lower-case names |
| C35-C40 | Element and StructuredBeamline on an explicit heap | invariants over API histories, induction on nesting |
| C41-C44 | elegant importer at character level | induction over expression trees and rendered text |
| C45 | Sirepo importer | induction over the definition graph |
| C46 | WarpWriter | induction over the element list |
| C47 | gradient conversion | algebra |
| C48-C50, C86 | Trace3d and TraceWin importers at character level, cavity and bend post-processing on the heap of C35 | induction over decks and over positions of the line |
| C51-C64, C87-C89, C96, C97 | SDDS reader and writer at byte level | parser/printer round trips by induction |
| C65-C68, C90-C95 | Switchyard and Species on the bytes of elegant files and the groups of HDF5 files | induction over particles and histories |
| C98-C101 | beam_plots: what is drawn, on SDDS data as tables | histogram lemmas of C32, induction over rows |
| C102-C103 | RsPhaseSpace6D and RsScatterPS6D with a file store | invariants over histories of calls |
| C104-C105 | gen_contour_levels and scatter_contour; outlines and point tests of matplotlib are parameters | real algebra, counting of the histogram |
| C106 | rsconst as a list of assignments with an evaluator | evaluation for all values of the constants |
| C107 | Report_Model: unit labels, the text of the report for any way of writing numbers, silent calls | the text is a list of lines; the numbers are those of C04 and C05 |
| C108 | Report_Model: argparse on a list of options, the constructor with a parser, main | invariant over the options read so far; agreement with the keyword constructor |
| C109 | Ptcl_Model: RsPtclBeam6D as an object, one step per method, exceptions included | induction over the history with the effect of one question on the array |
| C110 | Ptcl_Model: the constructor from the random numbers on | the cleaned array is a unit array (Jacobi sweeps, C72), then C16 and C17; a table of seven particles refutes the general claim |
| C111 | Stats_Model: the solver's passes | a pass with threshold zero on a matrix whose off-diagonal entries lie in disjoint pairs clears them all, by induction over the pairs; then the next pass returns |
| C112 | Match_Model: make_twiss_dist_6d with what it leaves in the array when it raises | the array after each plane is followed to the failure; a second call is composed with the first |
| C113 | Extremes_Model: minima and maxima by rows | induction over the particles; the mean by bounding the sum |
| C114 | Line_Model with failures: state before and after a call that raises | every call by cases; loads by induction over the nested lists, with the lines made by the load kept apart from those there before |
| C115 | Reuse_Model: the parser as an object with its dictionary of lines and its text | the search finds nothing twice; the loop only lengthens the beamline and does not look at its name |
| C116 | Again_Model: the TraceWin object with its list of lines, as a call leaves it, also when it raises | the cleaned lines are cleaned to themselves; induction on the number of calls over the state of C48 |
| C117 | the converter of C01-C04 (Kin_Model) | gamma and beta-gamma are increasing functions of each other; order carried through the relations of C01 |
| C118 | the statistics of C07 and C113 (Stats_Model, Extremes_Model) | sums over lists under affine maps and permutations; Popoviciu bound |
| C119 | specify_significant_figures (Stats_Model) | rounding to an integer is odd, monotone and nearest; decades of C14 |
| C120 | calc_twiss6d and calc_correlations6d (Twiss_Model, Stats_Model) | covariance is bilinear; the determinant of the plane is invariant; counterexample by computation |
| C121 | generate_matrix on histories of a beamline (Beamline_Model, Matrix) | the matrix depends on the types alone; product of lists splits; addition theorems of sin, cos, sinh, cosh by induction on n |
| C122 | phase_advance and tune_fft with the discrete Fourier transform written out (Phase_Model) | atan2 of a positive multiple; case analysis of the wrap; moduli of scaled and reversed sums |
| C123 | generate_sequence (Insert_Model) | midpoint sums of the integral of 1/beta with a Lipschitz bound, by induction on the slices; algebra for the rest |
| C124 | open, read, and genfromtxt on text (Sdds_Model) | the scan for rows meets the odd row before it has all it was asked for, by induction; the conversion of a short row raises; pages before by induction on the loop |
| C125 | reader of Sdds_Model (no_row_counts branch) | induction over the pages; empty lines are passed over when the next parameter is looked for |
| C126 | create_column and create_parameter of Sdds_Model | induction over the calls |
| C127 | Sample_Model | uniqueness of the interval of the cumulative shares that holds the number |
| C128 | Decoh_Model | the decay through a monotone auxiliary function: integral plus sin/theta prime plus 1/theta prime; the rest by uniqueness of the integral |
| C129 | Bunch_Model | the potential is the real part of (w - i pi/2) coth w in elliptic coordinates; pairs of functions with the Cauchy-Riemann equations are closed under sum, product and inverse |
| C130 | Plot_Model | affine maps commute with min, max, linspace and the bin test; induction over Permutation |
| C131 | Lte_Model | replacement distributes over separators; induction over the variables and the lines; the storing lines define nothing |
| C132 | Sdds_Model | inversion of the quoting and splitting for every header; the fields of each definition; lookups by name |
| C133 | Sdds_Model | every string of bytes is that of some number, so that the file is also one of pages in the order the reader expects, or the beginning of one |
| C134 | Switch_Model | inversion of a successful read, step by step; the converse by computation |
| C135 | Switch_Model | composition of the readers of C94 and C134 with the writers of C65 and C95 |
| C136 | Lte_Model | composition of the expansion of C42 with the sum over elements |
| C137 | Json_Model | expansion up to permutation, then the sum over elements |
| C138 | Warp_Model | import (C45), conversion along the heap, then the writer (C46) |
| C139 | Lte_Model, Json_Model, Line_Model | the invariant of beamlines kept by both imports, then the sum up to the element |
| C140 | Lte_Model, Json_Model, Line_Model | the invariants of both imports, then the product of C40; what stands first in the sequence decides the failure |
| C141 | Lte_Model, Line_Model | the invariant of the import, then the round trip of C39 on its heap |
| C142 | Trace_Model, T3_Model | the place of the word and of the equals sign behind it, then the numbers found there |
| C143 | Trace_Model, Line_Model | the import keeps the heap well formed; then the matrices of the elements in order, as for C140 |
| C144 | Trace_Model, Line_Model | the import keeps the heap well formed; then the round trip of C39 |
| C145 | Trace_Model, Line_Model | induction over the deck |
| C146 | Scatter_Model, Coord_Model | induction over the calls; the array cut into its rows |
| C147 | Twiss_Model, Match_Model | induction over the calls |

## 3. Trusted base

Coq's kernel; the axioms of the standard library's real numbers where the reals are used
(the lists printed by `Print Assumptions` are recorded in section 5 at the end); the
faithfulness of the model comments to the Python source.  Floating-point numbers are
modelled as exact reals unless said otherwise.

## 4. What is modelled and what is not

Common to all models: floating-point numbers are exact reals (no rounding, no overflow, no
signed zeros); nan and infinities are one value where the code can go on with them.  Text is
ASCII, bytes of SDDS headers are Latin-1.  Python's recursion limit, memory, and files that
change while they are read are not modelled.  Printing is left out except for the report of
the kinematics converter.

| file in /repo/rsbeams | modelled | not modelled |
|---|---|---|
| rsstats/kinematic.py | all of `Converter`, labels, report, option parser, `main` (Kin_Model, Report_Model) | how argparse splits words and abbreviates; numpy scalars as arguments |
| rsstats/stats6d.py | all functions (Stats_Model, Extremes_Model) | complex and integer arrays |
| rsstats/sample.py | all functions (Sample_Model) | |
| rsptcls/RsTwiss2D.py, RsDistrib6D.py, RsPtclBeam6D.py | all methods, random numbers as an arbitrary stream (Twiss_Model, Match_Model, Ptcl_Model) | methods of an object whose array has become infinite; plain getters of RsDistrib6D and RsTwiss2D |
| rsptcls/RsPhaseSpace6D.py | all methods (Scatter_Model, Coord_Model) | changes of the array through the views the getters return |
| rsptcls/bunch.py | both classes: properties, setters, all distributions, files (Bunch_Model) | the seed and the random generator (an arbitrary stream instead); scipy's root finder (an arbitrary function) |
| rsptcls/phases.py | all functions; the FFT by its definition (Phase_Model) | signed zeros in arctan2 |
| rsptcls/species.py, rsdata/switchyard.py | all methods (Switch_Model) | `read_genesis`, which is empty; HDF5 as a file format (groups, datasets and attributes instead) |
| rsdata/SDDS.py, datatypes.py, utils.py, struct_data.py | reader and writer at byte level (Sdds_Model) | machines with the most significant byte first (files of that order are, C133); unused helpers (`_return_type`, `_get_column_count`, `_get_position`, `_check_type`); numpy's text of floats (a parameter with its specification as hypothesis) |
| rsphysics/decoherence.py | all of `CentroidPosition` (Decoh_Model) | the error of scipy's quadrature and Fresnel functions |
| rsphysics/rsconst.py | all assignments (Scatter_Model) | |
| rslattice/Element.py, Beamline.py | all classes on a heap (Line_Model) | `Beamline.length` as a plain getter |
| rslattice/lte_parser.py, trace3d_parser.py | both importers at character level (Lte_Model, Trace_Model, T3_Model) | `_standardize` and `find_beamlines`, which are empty |
| rslattice/nonlinear.py | all methods (Insert_Model) | |
| rslattice/formatted_writer.py, pkcli/lattice.py | writer and command (Warp_Model) | reading of the YAML table from disk; pykern's command line |
| rslattice/templates/lattice_importer.py | importer (Json_Model) | JSON text (the loaded data instead); `get_schema` |
| rsplot/util.py, beam_plots.py, plot_ptcls.py, RsScatterPS6D.py | what is drawn (Plot_Model, Beam_Model, Scatter_Model) | matplotlib itself; figure sizes and fonts; outlines of contours (a parameter) |
| rsbeams_console.py, pkcli/__init__.py, pkcli/plot.py, `__init__.py` files | | start-up code without behaviour of its own |

## 5. Axioms per theorem

What `Print Assumptions` lists, all of it from the standard library (`Coq.Reals.ClassicalDedekindReals`,
`Coq.Logic.FunctionalExtensionality`, `Coq.Logic.Classical_Prop`).  There are no other axioms.

* no axioms (closed under the global context): C33_all_strings, C33_balanced_partial, C33_letter_refuted, C33_plain, C33_scripts_refuted, C33_symbols_partial, C34_element, C34_last_assignment, C34_last_value_defined, C35_add_beamline, C35_add_element, C35_add_to_subline, C35_expansion_unique, C35_failed_add, C35_flattens, C37_failed_call_refuted, C37_first, C37_reuse_partial, C37_through_parent_refuted, C38_beamline_name, C38_by_index_partial, C38_by_name_partial, C38_out_of_range, C39_load_into_used, C39_name_parameter_refuted, C39_nested_refuted, C39_roundtrip_partial, C39_two_sublines_refuted, C39_view_unique, C47_no_setup, C63_crash_refuted, C103_label_partial, C103_plotter, C106_import_refuted, C114_edit_partial, C114_load_first, C114_load_partial, C114_unchanged_partial, C134_elegant_keyword, C142_label_refuted, C142_open_refuted, C146_foreign_refuted
* `ClassicalDedekindReals.sig_forall_dec`: C34_get_and_in_refuted, C36_text_length, C38_nested_refuted, C38_other_position_refuted, C45_expansion_partial, C45_line_used_twice_refuted, C45_nested_backwards_refuted, C45_same_name_refuted, C45_unknown_name, C50_own_length_refuted, C50_phases_refuted, C50_two_elements_refuted, C74_component_edits, C82_longitudinal, C102_checked, C102_count_partial, C102_failed_read_refuted, C102_named, C102_refused, C102_replaced_refuted, C102_round_trip, C103_label_refuted, C114_edit_refuted, C114_load_refuted, C114_repeat_refuted, C137_same_elements_partial, C137_text, C146_checked, C146_rows_partial
* `ClassicalDedekindReals.sig_forall_dec`, `FunctionalExtensionality.functional_extensionality_dep`: C03_exactly_one_quantity, C04_codata_mass_units, C04_internal_mass, C07_empty, C07_variance, C08_beam_unchanged_refuted, C08_second_answer_partial, C09_sub_avg, C11_correlations_partial, C11_correlations_refuted, C15_invalid_accepted_refuted, C15_twiss_partial, C18_cdf, C19_halton_shape_refuted, C19_numeric_partial, C19_unsupported, C20_betay_read_refuted, C20_consistent_partial, C20_nonlinear_gamma_refuted, C21_insert_settings, C21_rejected_partial, C21_zero_beta_refuted, C22_constructor_refuted, C27_c_refuted, C27_constructor_refuted, C27_plain_attributes_partial, C32_charge, C32_errors, C32_histogram, C36_bounds, C36_edge, C36_length, C36_orphan, C46_after_failure_refuted, C46_capitals_refuted, C46_empty_refuted, C46_missing_parameter, C46_program_partial, C46_second_write_refuted, C48_comment_last_refuted, C48_trace3d_refuted, C49_dtl_cell_partial, C49_frequency_refuted, C49_ncells_partial, C50_cavities_length_partial, C51_no_rows_refuted, C51_round_trip_partial, C52_blank_refuted, C52_comma_refuted, C52_letter_refuted, C52_metadata_partial, C52_quote_refuted, C53_empty_refuted, C53_finishes_partial, C53_truncated_refuted, C54_first_line, C54_header_line, C55_binary_partial, C55_blank_refuted, C55_comments_partial, C55_metadata, C55_unbuffered, C56_empty_page_refuted, C56_pages_partial, C56_ragged_refuted, C57_empty_refuted, C57_selection_partial, C57_strings_refuted, C57_unbuffered_refuted, C58_ascii_partial, C58_buffer_partial, C58_row_count_refuted, C59_empty_partial, C59_empty_refuted, C59_long_refuted, C59_not_ascii_refuted, C59_nul_refuted, C59_strings_partial, C60_column_name_refuted, C60_integer_refuted, C60_names_refuted, C60_not_a_number_partial, C60_one_page_partial, C60_parameter_name_refuted, C60_short_line_refuted, C60_two_pages_refuted, C60_unbuffered_partial, C60_word_refuted, C61_accumulates_partial, C61_second_read_refuted, C62_fixed_partial, C62_zero_read_refuted, C62_zero_refuted, C63_complete_partial, C63_other_files_partial, C63_pack_refuted, C63_unequal_refuted, C64_int64_refuted, C64_mixed_refuted, C64_one_type_partial, C65_no_charge_refuted, C65_no_particles_refuted, C65_one_particle_refuted, C65_round_trip_partial, C66_first_kept, C66_stays, C67_absent_partial, C67_last_partial, C67_no_steps_partial, C67_step_partial, C67_zero_refuted, C68_genesis, C68_not_finite, C70_uniform_ends, C70_uniform_in_ball, C71_gauss_cutoff_partial, C71_gauss_cutoff_refuted, C74_arguments, C75_args_passed_partial, C75_zero_dropped_refuted, C79_constructor, C83_disjoint, C83_lines_partial, C83_lines_refuted, C83_profile, C86_bends_partial, C86_shared_edge_refuted, C87_ascii_partial, C87_binary_partial, C87_negative_refuted, C87_selection_partial, C87_unbuffered_partial, C88_numbers_partial, C88_types_refuted, C89_no_rows_refuted, C89_only_integers_refuted, C89_short_line_refuted, C89_text_partial, C90_genesis_refuted, C90_unknown_name_partial, C90_unsupported_partial, C90_writers_partial, C91_elegant_partial, C92_data_partial, C92_fixed_refuted, C92_pages_refuted, C92_zero_refuted, C93_default_partial, C93_later_refuted, C93_missing_refuted, C94_one_row_refuted, C94_pages_refuted, C94_rows_partial, C95_from_opal, C95_opal, C96_cut_partial, C96_unbuffered_refuted, C97_ascii, C97_binary, C97_metadata, C98_curves_partial, C98_missing, C98_symbol_refuted, C99_empty_page_refuted, C99_panels_partial, C100_current_partial, C100_empty_page_refuted, C100_missing_refuted, C100_total, C100_zero_charge, C101_empty_page_refuted, C101_planes_partial, C101_projections_partial, C103_figure, C104_constant_refuted, C104_cover_partial, C104_few_refuted, C104_levels_partial, C104_small_refuted, C105_all, C105_combo, C105_dense_partial, C105_grid_refuted, C105_scale_refuted, C105_scales, C105_sparse_refuted, C113_any_order, C113_centred, C113_empty, C113_max, C113_mean_between, C113_min, C116_first_call, C124_array_partial, C124_count_refuted, C124_extra_refuted, C124_rows_partial, C125_buffer_partial, C125_file_partial, C125_no_parameters_refuted, C125_two_pages_refuted, C125_zero_flag_refuted, C126_character_refuted, C126_script_partial, C127_nothing_refuted, C127_order, C127_shape, C127_share, C127_zero_refuted, C130_arrival, C130_charge, C130_order, C130_points, C130_stretch_partial, C130_stretch_refuted, C132_comma_refuted, C132_reported_partial, C132_twice_refuted, C133_little_partial, C133_long_refuted, C133_parameters_refuted, C133_rows_refuted, C133_text_partial, C134_last, C134_only_complete, C134_reads, C135_order_refuted, C135_to_elegant_partial, C135_to_opal_partial, C137_backwards_partial, C137_length_partial, C137_used_twice_refuted, C139_records_partial, C142_type
* `ClassicalDedekindReals.sig_forall_dec`, `ClassicalDedekindReals.sig_not_dec`, `FunctionalExtensionality.functional_extensionality_dep`: C01_kinematics_consistent, C02_round_trip, C02_sign_lost_refuted, C04_units_only_rescale, C05_reported_mass_partial, C05_reported_mass_refuted, C06_repeated_calls_partial, C06_repeated_calls_refuted, C07_rms, C08_array_afterwards_partial, C10_normalize_partial, C10_unit_rms_refuted, C12_covers_correlations, C12_eigen_decomposition, C12_lower_triangle_ignored, C13_basis_partial, C13_decorrelated_partial, C13_decorrelates_refuted, C16_matched_partial, C16_sign_refuted, C17_calc_twiss, C17_measured_partial, C17_round_trip_partial, C17_round_trip_refuted, C22_gaussian_refuted, C26_bad_slices, C26_insert, C28_closed_forms_refuted, C28_missing_refuted, C29_coefficients_refuted, C31_tune_range, C40_defined, C40_parameters_refuted, C40_product_partial, C40_symplectic, C42_blank_before_repetition_refuted, C42_line_used_twice_refuted, C42_nested_repetition_refuted, C42_quoted_line_refuted, C43_blank_line, C43_comment_at_end_refuted, C43_comment_line_partial, C43_split_partial, C43_split_refuted, C44_last_line_refuted, C44_last_text_refuted, C47_conversion_partial, C47_gradient, C47_reference_momentum_refuted, C47_slow_beam_refuted, C69_unphysical_partial, C69_unphysical_refuted, C72_clean_refuted, C72_cleaned_partial, C73_peak_current, C73_reference_particle, C76_offset_refuted, C76_tone_tune_partial, C78_madx, C81_gaussian_partial, C81_tilted_refuted, C84_conversion_partial, C84_sextupole_refuted, C85_anywhere_refuted, C85_converted_partial, C85_unconverted_refuted, C91_opal_refuted, C106_before_partial, C107_input_partial, C107_input_refuted, C107_mass_partial, C107_quantities, C107_silent, C108_accepts, C108_report, C108_same_as_keywords, C109_answers, C109_history_partial, C109_history_refuted, C109_quiet_partial, C109_twiss, C110_arguments, C110_as_asked_partial, C110_as_asked_refuted, C110_by_name, C111_decorrelation_returns_partial, C111_exact_refuted, C111_five_passes_partial, C111_independent_planes_partial, C111_solver_returns_partial, C112_accepted, C112_after_failure_partial, C112_component_edits, C112_failure_changes_beam_refuted, C112_harmless_partial, C112_which_error, C115_again_refuted, C115_corrected_refuted, C115_name_ignored_refuted, C115_set_first_partial, C115_uses_refuted, C117_faster, C117_heavier, C118_any_order, C118_extent, C118_moved, C118_zero, C120_linear_partial, C120_linear_refuted, C120_units, C121_joined, C121_row, C122_amplitude, C122_backwards, C122_turns, C123_scales, C123_shape, C128_zero_refuted, C131_from_variable_refuted, C131_part_of_word_refuted, C131_start_of_line_refuted, C135_back_refuted, C135_momentum_refuted, C136_used_twice_refuted, C138_capitals_refuted, C138_no_strength, C138_program_partial, C138_straight_bend, C139_repeated_refuted, C140_records_refuted, C141_two_lines_refuted, C147_affine, C147_history, C147_moments, C147_order, C147_undone
* `ClassicalDedekindReals.sig_forall_dec`, `ClassicalDedekindReals.sig_not_dec`, `Classical_Prop.classic`, `FunctionalExtensionality.functional_extensionality_dep`: C14_significant_figures, C22_quiet_partial, C23_KV_invariants_partial, C23_KV_partial, C23_quiet_tilted_refuted, C23_unequal_betas_refuted, C24_crash_refuted, C24_emittance_partial, C25_potential, C28_any_order, C28_first_order_partial, C28_second_order_partial, C29_centroids_partial, C30_phase_advance, C30_range, C40_motion, C41_preceded, C41_short_of_operands, C41_undefined, C41_value, C42_expansion_partial, C44_definition_partial, C48_exponent_refuted, C48_minus_refuted, C48_other_word_refuted, C48_tracewin_partial, C50_deck_length, C77_phase_advance_partial, C77_phase_refuted, C79_betay_refuted, C79_cutoff_refuted, C79_stored_partial, C80_gaussian_partial, C80_named_partial, C80_unequal_betas_refuted, C80_waterbag_partial, C116_again_refuted, C116_calls_partial, C116_comments_refuted, C116_other_word_refuted, C119_nearest, C119_negative, C119_order, C119_point, C119_unchanged, C122_directions, C122_sum, C123_total, C128_amplitude, C128_dies_out, C128_fraction, C128_mirror_partial, C128_mirror_refuted, C128_no_spread, C128_vanishes, C128_zeros_partial, C129_axes, C129_lines_refuted, C129_scale, C129_strength, C129_vacuum_partial, C131_stored_partial, C131_stored_twice_refuted, C131_values_partial, C136_any_order_partial, C136_length_partial, C136_text, C139_elegant_partial, C140_flat_partial, C140_lines_refuted, C140_types_refuted, C141_same_partial, C142_name_refuted, C142_sign_refuted, C142_values_partial, C143_numbers_refuted, C143_order_partial, C143_others_refuted, C144_field_map_refuted, C144_same_partial, C145_cards, C145_cell

## 6. What the proofs found in the code

Each of these is a theorem `..._refuted` with a concrete input; the note says what is true instead.

* C02 (C02_sign_lost_refuted): Round trip holds up to the sign of velocity-like quantities, which gamma and energy cannot carry (C02_sign_lost_refuted).
* C05 (C05_reported_mass_refuted): The mass is reported in eV units whatever unit was asked for: refuted as stated; the partial theorem says exactly what is reported.
* C06 (C06_repeated_calls_refuted): Repeated calls are stable in eV units; in SI units the second call converts again (refuted).
* C08 (C08_beam_unchanged_refuted): False: each statistics call moves particle 0 to the centroid. The partial theorems give the array afterwards, when it is unchanged, and the second answer.
* C10 (C10_unit_rms_refuted): False in general because the array is altered before scaling; the exact variance is given, equal to 1 when the first particle is on the centroid.
* C11 (C11_correlations_refuted): Diagonal exact; off-diagonal entries lack the first particle (refuted); exact formula, symmetry and positive semidefiniteness proved.
* C13 (C13_decorrelates_refuted): False in general; proved when the first particle is on the centroid; orthogonality of the basis change proved always.
* C15 (C15_invalid_accepted_refuted): Construction proved for all values; beta=0 raises; negative beta/emittance are accepted and assignment leaves gamma stale (refuted).
* C16 (C16_sign_refuted): Proved for every normalised beam unless alpha<0 and gamma=beta, where the correlation gets the wrong sign (refuted with a witness).
* C17 (C17_round_trip_refuted): Moments and failure condition proved for all beams. Partial: the round trip through make_twiss_dist_6d needs the first particle on the centroid and excludes negative alpha with gamma equal to beta, where the measured alpha has the other sign (refuted).
* C19 (C19_halton_shape_refuted): Bisection proved against the cumulative weights; Halton sampling returns an (n,1) array (refuted shape). Cubic interpolation is SciPy and stays abstract.
* C20 (C20_nonlinear_gamma_refuted, C20_betay_read_refuted): Every history of assignments with positive betas, both classes. Reading betay returns betax, and the derived class computes gamma_y from alpha_x (both refuted).
* C21 (C21_zero_beta_refuted): Holds for nonzero betas; a beta of 0 is stored before the exception (refuted).
* C22 (C22_gaussian_refuted, C22_constructor_refuted): All random streams and any root finder, for the three routines that honour the flag. The linear Gaussian ignores it and NonlinearBunch cannot be given it (refuted).
* C23 (C23_unequal_betas_refuted, C23_quiet_tilted_refuted): Equal betas, and upright ellipses when quiet; otherwise refuted by two witnesses.
* C24 (C24_crash_refuted): Proved for normal return; an exception inside the loop leaves the temporary value (refuted).
* C27 (C27_c_refuted, C27_constructor_refuted): Assigning c raises NameError for every valid value, and the constructor does not validate (refuted).
* C28 (C28_missing_refuted, C28_closed_forms_refuted): quad and fresnel are taken as the exact integrals. Any-order routine proved for every coefficient list; closed forms need a nonzero slope and a positive second coefficient (refuted otherwise, also with too few coefficients).
* C29 (C29_coefficients_refuted): Partial: a slope that is not zero, or a positive second coefficient. Without a slope nothing is returned and with a negative second coefficient every turn but the first is nan (refuted).
* C33 (C33_letter_refuted, C33_scripts_refuted): Exact characterisation for all strings of when a string is returned and which; false for letters without a Greek form and for unterminated scripts (refuted).
* C34 (C34_get_and_in_refuted): All histories of assignments, ASCII names, for reads with []; dict.get and "in" do not ignore case (refuted).
* C37 (C37_through_parent_refuted, C37_failed_call_refuted): Proved for additions through the same beamline object; false when the element came through the parent, and after a call that raised (refuted).
* C38 (C38_nested_refuted, C38_other_position_refuted): Exact effect on every element and parameter; nested elements are not edited and a shared element is edited at every position (refuted).
* C39 (C39_two_sublines_refuted, C39_nested_refuted, C39_name_parameter_refuted): Proved for at most one sub-beamline of plain elements; two sub-beamlines are merged, nesting is flattened, and a parameter called name replaces the name (refuted).
* C40 (C40_parameters_refuted): Order and symplecticity proved; the matrix does not depend on the parameters of any element (refuted).
* C42 (C42_line_used_twice_refuted, C42_nested_repetition_refuted, C42_blank_before_repetition_refuted, C42_quoted_line_refuted): Proved for every lattice whose expansion enters no line twice, with n*name and n*(names), and names of elements, of lines and of the selected line plain or in double quotes where they are defined. Refuted: a line used twice, nested repetition, a blank before a repetition, a line entered by a name in quotes. Names in single quotes are not covered.
* C43 (C43_comment_at_end_refuted, C43_split_refuted): Blank lines: full. Comment lines: proved when something follows them; otherwise the import always raises IndexError (refuted). Splits: proved up to the white space at the end of the line, whose loss changes an element type (refuted).
* C44 (C44_last_text_refuted, C44_last_line_refuted): Values are reverse-Polish expressions or words, quoted or not. A text as last value keeps the newline and a definition without parameters at the end of the file loses a character (refuted).
* C45 (C45_line_used_twice_refuted, C45_nested_backwards_refuted, C45_same_name_refuted): Partial: lines name no line twice, only lines of elements are taken backwards, names are unique; each of the three restrictions is shown necessary (refuted). The limit is the number of nested calls Python allows. The model starts from the loaded data.
* C46 (C46_second_write_refuted, C46_empty_refuted, C46_capitals_refuted, C46_after_failure_refuted): Proved for any write: definitions once, from the first element of the name, ahead of the sum, for the names the writer has not written before; hence complete for a new writer. A second write, an empty line, names differing in capitalisation and a write after a failure are refuted. The mapping is a parameter (built by sirepo).
* C47 (C47_reference_momentum_refuted, C47_slow_beam_refuted): Exact reals. The conversion is right for the energy it is given, but is given the momentum as energy (refuted for every momentum); momenta below the mass give nan, zero raises.
* C48 (C48_minus_refuted, C48_exponent_refuted, C48_comment_last_refuted, C48_other_word_refuted, C48_trace3d_refuted): Proved at character level for TraceWin decks of all seven cards in any capitalisation, with comments and blank lines, for numbers without exponent, negative ones with decimals. Refuted: minus sign without decimals, exponents, a comment behind the last card, any other word (END), and every Trace3D deck.
* C49 (C49_frequency_refuted): False for every deck: no cavity ever gets another frequency than 1 (refuted). Partial: the handlers use the frequency the parser keeps, if it kept one.
* C50 (C50_phases_refuted, C50_own_length_refuted, C50_two_elements_refuted): Deck length: full for the decks of C48. Cavity post-processing: length proved for cavities without own length and three or more elements; all cavities get the phase of the last one, an own length is lost, a line of two doubles (refuted).
* C51 (C51_no_rows_refuted): Byte level. Partial: names, units and the like are plain text, there is at least one row and one column and, without the buffer, the second byte of the row count is not white space. A table without rows loses its column names (refuted for every such table).
* C52 (C52_quote_refuted, C52_comma_refuted, C52_blank_refuted, C52_letter_refuted): Partial: plain text without quotes, backslashes, line ends or a comma at the end, names without blanks; every mode and any mixture of column types, even if the save fails on the way. Quote, comma and blank are refuted.
* C53 (C53_truncated_refuted, C53_empty_refuted): False: every file cut between header commands, and every empty file, is read for ever (refuted for all such files). Partial: opening ends once the data command is complete.
* C55 (C55_blank_refuted): Descriptions: full. Data: full without the buffer; with it for binary pages, and for comments in ASCII files. An empty line in the header of a buffered ASCII file shifts the data (refuted).
* C56 (C56_ragged_refuted, C56_empty_page_refuted): Byte level, any number of pages with the same non-zero number of rows, strings included. Pages of different lengths raise and empty pages are dropped (refuted for all such files).
* C57 (C57_unbuffered_refuted, C57_strings_refuted, C57_empty_refuted): Partial: fixed-size types, in the buffer, non-empty selection. With strings all earlier columns are returned, an empty selection raises, and without the buffer the wrong bytes are returned (refuted).
* C58 (C58_row_count_refuted): Partial: binary files whose row counts have no white space as second byte, and ASCII files of one page. 2560 to 2815 rows and similar counts make the file seem empty without the buffer (refuted).
* C59 (C59_empty_refuted, C59_nul_refuted, C59_long_refuted, C59_not_ascii_refuted): Partial: ASCII strings that are not empty, not longer than the limit and do not end in NUL; the four other cases are refuted (in the buffer; without it an empty string is read).
* C60 (C60_two_pages_refuted, C60_short_line_refuted, C60_column_name_refuted, C60_names_refuted, C60_parameter_name_refuted, C60_word_refuted, C60_integer_refuted): Partial: all pages without the buffer, if the first line of a page has more than one character; one page with the buffer. Both restrictions are refuted. An item alone on its line must be of its type (5.0 is not read as an integer), and names must not be changed in reading (file, print, return); both are refuted else.
* C61 (C61_second_read_refuted): False: k reads leave k copies of all pages (proved for every k); refuted for every non-empty file.
* C62 (C62_zero_refuted, C62_zero_read_refuted): Partial: non-zero, non-empty fixed values. Zero and the empty text are dropped and the rest of the file is misread (refuted).
* C63 (C63_unequal_refuted, C63_pack_refuted, C63_crash_refuted): False: a failed or interrupted save leaves an empty or incomplete file, and columns of different lengths give an empty file without error (refuted for all writers). Partial: other files are untouched; a successful save leaves the complete header.
* C64 (C64_mixed_refuted, C64_int64_refuted): Partial: all columns of one type (double, short, long). Mixed types and 64-bit integers are refuted.
* C65 (C65_one_particle_refuted, C65_no_particles_refuted, C65_no_charge_refuted): Down to the bytes of the SDDS file. Numbers are reals; the bytes of a double and back are a parameter that is exact for the numbers at hand. Partial: at least two particles and a total charge; one particle, none, and a species without total charge are refuted.
* C67 (C67_zero_refuted): Partial: every k except 0. Asking for step 0 returns the last step (refuted). An HDF5 file is its groups with datasets and attributes.
* C69 (C69_unphysical_refuted): Some unphysical inputs are turned into finite answers (refuted); the partial theorem lists the inputs that are not.
* C71 (C71_gauss_cutoff_refuted): The cut compares the square of the value with max_rms_fac: refuted for factors other than 1, exact guarantee proved.
* C72 (C72_clean_refuted): False: normalisation moves the first particle; the exact relation between mean and variance is proved.
* C75 (C75_zero_dropped_refuted): A lone 0 argument is dropped (refuted).
* C76 (C76_offset_refuted): Proved when the offset is below half the amplitude; otherwise the tune comes out 0 (refuted).
* C77 (C77_phase_refuted): Proved for phases strictly between 0 and 1/2; phases between 1/2 and 1 give the optics of 1-phase (refuted).
* C79 (C79_betay_refuted, C79_cutoff_refuted): Proved for every keyword except betay (stored in betax, refuted) and cutoff (always NameError, refuted).
* C80 (C80_unequal_betas_refuted): Partial: emittances up to 1e10, equal betas, and upright ellipses when quiet. With different betas a particle has more than twice the Hamiltonian allowed (refuted).
* C81 (C81_tilted_refuted): Upright ellipses only; alpha is ignored (refuted).
* C83 (C83_lines_refuted): All tables. Partial: the coloured lines drawn besides the rectangles are single points for the default scale only; for another scale they lie where there is no magnet (refuted).
* C84 (C84_sextupole_refuted): False: the square of the rigidity is used, for every momentum (_refuted). Proved for every sextupole of every beamline: which field is given, and that it is the right one only for strength 0, momentum 0 or rigidity 1 (_partial).
* C85 (C85_anywhere_refuted, C85_unconverted_refuted): False: six listed types get no strength and the write raises KeyError, wherever in a line they stand (_refuted). Proved: lattices of the other nine types are converted (_partial).
* C86 (C86_shared_edge_refuted): Proved for all lines in which no two bends share an edge; with a shared edge it raises halfway (refuted).
* C87 (C87_negative_refuted): Partial: without the buffer and with any page selection for every file; in the buffer for ASCII files and for well-formed binary files. A negative row count in a buffered binary file is read for ever (refuted).
* C88 (C88_types_refuted): Partial: double, and long within 32 bits. Parameters of type short and string are accepted and can never be saved (refuted for every writer).
* C89 (C89_short_line_refuted, C89_only_integers_refuted, C89_no_rows_refuted): Character level; the printing functions of Python and numpy are parameters of which only what they print for the values at hand is assumed. Partial: at least one row and column and, without the buffer, a first line of more than one character; both restrictions are refuted, and so is an only column of integers. Names must be kept in reading (C60). String parameters are not covered.
* C90 (C90_genesis_refuted): False for genesis, which is_supported accepts and read refuses (refuted). Partial: every other name is refused by both; genesis and opal can be written.
* C91 (C91_opal_refuted): False for OPAL: pz is stored as the total momentum, which holds exactly for particles without transverse momentum that do not move backwards (refuted as an equivalence). Partial: elegant stores column p.
* C92 (C92_fixed_refuted, C92_zero_refuted, C92_pages_refuted): Partial: a charge in the data of a single page. Several pages give a list of charges that cannot be written back for elegant, a fixed value in the header is ignored and an OPAL charge of zero raises or is replaced (refuted).
* C93 (C93_missing_refuted, C93_later_refuted): False: the species called species_0 is written, or KeyError is raised (refuted). Partial: if species_0 was registered first.
* C94 (C94_one_row_refuted, C94_pages_refuted): Partial: one page with two or more rows, or several pages with one row each. One row raises IndexError; several pages with several rows raise ValueError (refuted).
* C96 (C96_unbuffered_refuted): Partial: with the buffer, for every header, page and cut position. Without it the rest of the page is returned without an error (refuted).
* C98 (C98_symbol_refuted): Partial: symbols and units that can be formatted (C33). With a symbol code that is not known the plot raises KeyError (refuted). No page up to the one shown may be without rows. A missing quantity is always an error.
* C99 (C99_empty_page_refuted): Partial: pages of particles with positive momentum, with no page without rows before. After a page without rows IndexError is raised (refuted).
* C100 (C100_missing_refuted, C100_empty_page_refuted): Partial: a charge is given or in the file. If the file has no charge ValueError is raised instead of a normalised profile (refuted); a charge of zero in the file gives that profile. The reader drops pages without rows, but not their parameters, so that a page number then means two different pages (refuted).
* C101 (C101_empty_page_refuted): Partial: pages of particles with no page without rows before. After a page without rows IndexError is raised (refuted).
* C102 (C102_replaced_refuted, C102_failed_read_refuted): Partial: the number is right over all histories without set_array_6d from files with 6 by N arrays. After set_array_6d it is stale, and a failing read_array leaves the bad array in the object (both refuted). The file round trip is proved in full, and so is that the setters refuse exactly an empty name and a count that is not positive, change nothing then, and the name is never empty.
* C103 (C103_label_refuted): Partial: labels of up to five characters; longer ones are cut (refuted). Figures are proved in full.
* C104 (C104_constant_refuted, C104_small_refuted, C104_few_refuted): Partial: fields that are not constant and positive; the default arguments cover the field if its largest absolute value is at least 0.011. Constant fields, small fields and few levels do not (refuted).
* C105 (C105_sparse_refuted, C105_grid_refuted, C105_scale_refuted): Partial: contour and combined plots are drawn if there are more than 1 or 8 particles per cell on average. Few particles always raise ValueError, grids always raise, and combined plots ignore the kind of axes (refuted). The outlines and the test of points are parameters.
* C106 (C106_import_refuted): False: KG_to_EV is computed from names assigned later, so that the import raises NameError (refuted). Partial: the two assignments before it.
* C107 (C107_input_refuted): Partial: the line about the input is right when no conversion applies to it. For SI input of momentum or energy the converted number is shown beside the SI unit (refuted). The line about the mass is right in the cases of C05. The eight quantities are proved in full.
* C109 (C109_history_refuted): Partial: every question about the spread moves the first particle towards the centroid of the others by a factor of the number of particles, proved exactly for all histories; all else stays. If the first particle is on the centroid nothing changes. In general the answers change: the peak current of two particles doubles when asked again (refuted). Arrays with infinities are not modelled.
* C110 (C110_as_asked_refuted): Partial: if the first particle of the draws is on their centroid, moments and Twiss parameters are exactly those asked for (except negative alpha with beta equal to gamma, C16). In general they are not: seven particles are neither centred nor matched (refuted). The arguments are proved in full.
* C111 (C111_exact_refuted): Partial: symmetric matrices, and beams with the first particle on the centroid, in which no coordinate is correlated with more than one other (independent planes for instance): at most five passes. Refuted in exact arithmetic for others: the loop stops when all correlations are exactly zero, and for a beam of eleven particles with three correlated coordinates no number of passes gets there, because its eigenvalues are not reached by square roots; what ends the loop on a computer is rounding, which is not modelled.
* C112 (C112_failure_changes_beam_refuted): Partial: nothing changes if the first plane is refused or a component edit is. If a later plane is refused the planes before it are already matched (proved exactly), and a corrected second call matches them twice (refuted).
* C114 (C114_repeat_refuted, C114_edit_refuted, C114_load_refuted): Partial: add_element, add_beamline and edits by position leave everything as it was, though a failed add_element can fix what its name stands for in later calls (refuted). An edit by name that meets a beamline of that name has already edited the elements before it (exactly those, proved; refuted as a whole). A load that raises leaves the other beamlines and all elements they had as they were, and can be repeated if it raised at its first entry; otherwise it keeps what it had loaded and a corrected second load is passed over in silence (refuted).
* C115 (C115_name_ignored_refuted, C115_corrected_refuted, C115_again_refuted, C115_uses_refuted): Partial: true for a name set before the first call and written in small letters (up to the name of the beamline object). Refuted after a call: the first result is returned again, longer, for every file; the name set is ignored; a call that follows one for a missing line returns an empty beamline without an error; capitals are accepted by the constructor only.
* C116 (C116_again_refuted, C116_comments_refuted, C116_other_word_refuted): Partial: the first call only, for the decks of C48. Proved exactly for any number of calls: the n-th call leaves n copies of the deck in the one beamline, which earlier calls returned too (refuted). Comments behind the last card make a call raise and are then gone, one per call, so that a later call succeeds (refuted). With another word each call raises and adds the cards in front of it again (refuted).
* C120 (C120_linear_refuted): Partial: linear maps for beams whose first particle sits on the centroid; refuted otherwise (a drift of length one raises the square of the emittance of a beam of three from 11/9 to 24/9), because the correlations leave the first particle out. Change of units, signs and origin proved for every beam.
* C124 (C124_extra_refuted, C124_count_refuted): Partial: proved for values too few, rows of different lengths, and any misfit of a single column. Refuted: when all rows have too many values the last ones are dropped silently, and a page cut off returns the rows that are left without an error.
* C125 (C125_no_parameters_refuted, C125_two_pages_refuted, C125_zero_flag_refuted): Proved for files read from disk (any number of pages) and for one buffered page. Refuted: several buffered pages; files without parameters cannot be opened (IndexError); no_row_counts=0 is taken for set.
* C126 (C126_character_refuted): Proved for the types double, short, long and string. The class documents the type character too, which is refused (refuted).
* C127 (C127_zero_refuted, C127_nothing_refuted): Shares, order, zero density and shape proved for all densities. The number 0, which the generator may return, draws the lower bound even where the density is zero there, and a density that is zero on the whole grid silently gives the lower bound for every sample (both refuted for all such densities).
* C128 (C128_mirror_refuted, C128_zero_refuted): Amplitude, fraction, no spread, decay and its limit proved for all usable coefficients. The sign symmetry fails with exactly two coefficients (nan) and one zero appended to one coefficient raises ZeroDivisionError; both are refuted for all such settings and the rest proved (_partial).
* C129 (C129_lines_refuted): Laplace's equation proved at all points off the two half lines that go outwards from the singular points (_partial), with the whole plane otherwise; on those half lines the potential is finite and has a kink for every strength but zero (refuted). Scale, strength and axes proved in full.
* C130 (C130_stretch_refuted): All proved. The stretch holds when not all particles arrive at the same time (_partial); when they do, the bins are one unit of time wide in any unit, so the current does not follow (refuted for all such bunches).
* C131 (C131_part_of_word_refuted, C131_start_of_line_refuted, C131_from_variable_refuted, C131_stored_twice_refuted): Proved for names set off by separators that are part of no other word, name or value in the file (_partial). Refuted otherwise: a variable named l makes the beamline disappear; in a line that starts with the name nothing is replaced; a variable cannot be computed from another; of two values stored under a name the first is used throughout.
* C132 (C132_comma_refuted, C132_twice_refuted): Proved for distinct names and texts without a comma at the end (_partial). Refuted: a comma at the end of a text is lost, also in quotes; of two parameters of one name the second is reported for both.
* C133 (C133_parameters_refuted, C133_long_refuted, C133_rows_refuted): Files with the least significant byte first and text files are read (_partial). Refuted for the other order, which the header states and the documentation excludes: without columns every number comes back with its bytes in the other direction (a long from 1 to 127 times 16777216), and with columns of numbers every file below 16 MB whose first page has 1 to 127 rows raises ValueError.
* C135 (C135_momentum_refuted, C135_order_refuted, C135_back_refuted): Down to the bytes of the elegant file. Positions, slopes and charge are right in both directions (_partial). Refuted: the size of the momentum changes for every particle that does not move along the axis, smaller in the elegant file and larger in the OPAL file; and times are taken for positions with the same sign, so that the particle further ahead is said to arrive later. Numbers are reals that are doubles, momenta along the axis are not zero.
* C136 (C136_used_twice_refuted): Proved for the lattices of C42 (_partial). Refuted for lines used twice: two cells of length 3 are 12 long.
* C137 (C137_used_twice_refuted): Proved where no line names one line twice (_partial). Refuted otherwise: two cells of length 3 are 12 long. Unlike C45 nothing is asked of lines taken backwards, only the order can differ there.
* C138 (C138_capitals_refuted): Proved for the lattices of C45 without the unconverted types, with names that differ in more than capitals, for the total energy p_central_mev (_partial). False when names differ in capitals only: the second element gets the length of the first (_capitals_refuted). Missing: C84 (sextupoles get the square of the rigidity), C85 (types not converted), C47 (the reference momentum is taken as the energy).
* C139 (C139_repeated_refuted): Proved for the lattices of C42 and C45 whose elements occur once each (_partial). Refuted otherwise: an element that occurs twice has one position, that of its first occurrence.
* C140 (C140_lines_refuted, C140_types_refuted, C140_records_refuted): Proved for elegant files, lines without lines in them, elements of the types drift and quadrupole, and the matrix in the variables K1 and L (_partial). Refuted for every other case: a line in the line gives AttributeError, and a lattice whose types are those of elegant (drif, quad) or of Sirepo gives KeyError or AttributeError. The numbers of the elements do not enter (C40).
* C141 (C141_two_lines_refuted): Proved for lines with at most one line in them and no parameter called name or type (_partial). Refuted for two lines in a line: the loaded beamline has every element twice.
* C142 (C142_name_refuted, C142_sign_refuted, C142_label_refuted, C142_open_refuted): The type is proved for every line whose name has no equals sign. The values are proved for names without a( and for numbers without exponent and, if negative, with decimals (_partial). Refuted: a name with a( in it makes the type the first value; a negative number without decimals loses its sign; the name returned is the index i, never the name; without the closing bracket the last character of the index is lost.
* C143 (C143_numbers_refuted, C143_others_refuted): Proved: decks of drifts and quadrupoles have the product of the matrices of their cards in this order, in the variables K1 and L (_partial). Refuted: the numbers of the cards are never put in, so decks with the same words have the same matrix; any other card (frequency, cavity, DTL cell, field map, sync phase) makes generate_matrix raise KeyError.
* C144 (C144_field_map_refuted): Proved for decks without field maps (_partial). Refuted for field maps: their first number is the parameter TYPE, which the file of the saved beamline uses for the type of the element, so it is lost.
* C146 (C146_foreign_refuted): Proved over all histories without set_array_6d from files with 6 by N arrays (_partial), and for any array once check_array has succeeded. Refuted after set_array_6d: with fewer than six rows get_array_dp raises IndexError, and with another number of columns the coordinates are not as many as get_num_ptcls says.
