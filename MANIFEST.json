{
 "claims": [
  {
   "property": "C01",
   "status": "proved",
   "theorems": [
    "C01_kinematics_consistent"
   ],
   "note": "Exact reals. All eight input kinds, default (eV) units; every output satisfies the relativistic identities."
  },
  {
   "property": "C02",
   "status": "partial",
   "theorems": [
    "C02_round_trip",
    "C02_sign_lost_refuted"
   ],
   "note": "Round trip holds up to the sign of velocity-like quantities, which gamma and energy cannot carry (C02_sign_lost_refuted)."
  },
  {
   "property": "C03",
   "status": "proved",
   "theorems": [
    "C03_exactly_one_quantity"
   ],
   "note": "All argument combinations."
  },
  {
   "property": "C04",
   "status": "proved",
   "theorems": [
    "C04_units_only_rescale",
    "C04_codata_mass_units",
    "C04_internal_mass"
   ],
   "note": "All proper unit combinations, with constants for which the two electron masses agree."
  },
  {
   "property": "C05",
   "status": "partial",
   "theorems": [
    "C05_reported_mass_partial",
    "C05_reported_mass_refuted"
   ],
   "note": "The mass is reported in eV units whatever unit was asked for: refuted as stated; the partial theorem says exactly what is reported."
  },
  {
   "property": "C06",
   "status": "partial",
   "theorems": [
    "C06_repeated_calls_partial",
    "C06_repeated_calls_refuted"
   ],
   "note": "Repeated calls are stable in eV units; in SI units the second call converts again (refuted)."
  },
  {
   "property": "C07",
   "status": "proved",
   "theorems": [
    "C07_variance",
    "C07_rms",
    "C07_empty"
   ],
   "note": "Welford recurrence over any number of particles."
  },
  {
   "property": "C08",
   "status": "partial",
   "theorems": [
    "C08_array_afterwards_partial",
    "C08_second_answer_partial",
    "C08_beam_unchanged_refuted"
   ],
   "note": "False: each statistics call moves particle 0 to the centroid. The partial theorems give the array afterwards, when it is unchanged, and the second answer."
  },
  {
   "property": "C09",
   "status": "proved",
   "theorems": [
    "C09_sub_avg"
   ],
   "note": "Any number of particles."
  },
  {
   "property": "C10",
   "status": "partial",
   "theorems": [
    "C10_normalize_partial",
    "C10_unit_rms_refuted"
   ],
   "note": "False in general because the array is altered before scaling; the exact variance is given, equal to 1 when the first particle is on the centroid."
  },
  {
   "property": "C11",
   "status": "partial",
   "theorems": [
    "C11_correlations_partial",
    "C11_correlations_refuted"
   ],
   "note": "Diagonal exact; off-diagonal entries lack the first particle (refuted); exact formula, symmetry and positive semidefiniteness proved."
  },
  {
   "property": "C12",
   "status": "proved",
   "theorems": [
    "C12_lower_triangle_ignored",
    "C12_eigen_decomposition",
    "C12_covers_correlations"
   ],
   "note": "For every symmetric positive semidefinite (sigma) matrix, any number of sweeps, whenever the solver returns; exact reals."
  },
  {
   "property": "C13",
   "status": "partial",
   "theorems": [
    "C13_basis_partial",
    "C13_decorrelated_partial",
    "C13_decorrelates_refuted"
   ],
   "note": "False in general; proved when the first particle is on the centroid; orthogonality of the basis change proved always."
  },
  {
   "property": "C14",
   "status": "proved",
   "theorems": [
    "C14_significant_figures"
   ],
   "note": "Full: digits, decade, error bound, idempotence."
  },
  {
   "property": "C15",
   "status": "partial",
   "theorems": [
    "C15_twiss_partial",
    "C15_invalid_accepted_refuted"
   ],
   "note": "Construction proved for all values; beta=0 raises; negative beta/emittance are accepted and assignment leaves gamma stale (refuted)."
  },
  {
   "property": "C16",
   "status": "partial",
   "theorems": [
    "C16_matched_partial",
    "C16_sign_refuted"
   ],
   "note": "Proved for every normalised beam unless alpha<0 and gamma=beta, where the correlation gets the wrong sign (refuted with a witness)."
  },
  {
   "property": "C17",
   "status": "partial",
   "theorems": [
    "C17_calc_twiss",
    "C17_measured_partial",
    "C17_round_trip_partial",
    "C17_round_trip_refuted"
   ],
   "note": "Moments and failure condition proved for all beams. Partial: the round trip through make_twiss_dist_6d needs the first particle on the centroid and excludes negative alpha with gamma equal to beta, where the measured alpha has the other sign (refuted)."
  },
  {
   "property": "C18",
   "status": "proved",
   "theorems": [
    "C18_cdf"
   ],
   "note": "Exact reals, any number of weights."
  },
  {
   "property": "C19",
   "status": "partial",
   "theorems": [
    "C19_numeric_partial",
    "C19_halton_shape_refuted",
    "C19_unsupported"
   ],
   "note": "Bisection proved against the cumulative weights; Halton sampling returns an (n,1) array (refuted shape). Cubic interpolation is SciPy and stays abstract."
  },
  {
   "property": "C20",
   "status": "partial",
   "theorems": [
    "C20_consistent_partial",
    "C20_nonlinear_gamma_refuted",
    "C20_betay_read_refuted"
   ],
   "note": "Every history of assignments with positive betas, both classes. Reading betay returns betax, and the derived class computes gamma_y from alpha_x (both refuted)."
  },
  {
   "property": "C21",
   "status": "partial",
   "theorems": [
    "C21_rejected_partial",
    "C21_insert_settings",
    "C21_zero_beta_refuted"
   ],
   "note": "Holds for nonzero betas; a beta of 0 is stored before the exception (refuted)."
  },
  {
   "property": "C22",
   "status": "partial",
   "theorems": [
    "C22_quiet_partial",
    "C22_gaussian_refuted",
    "C22_constructor_refuted"
   ],
   "note": "All random streams and any root finder, for the three routines that honour the flag. The linear Gaussian ignores it and NonlinearBunch cannot be given it (refuted)."
  },
  {
   "property": "C23",
   "status": "partial",
   "theorems": [
    "C23_KV_partial",
    "C23_KV_invariants_partial",
    "C23_unequal_betas_refuted",
    "C23_quiet_tilted_refuted"
   ],
   "note": "Equal betas, and upright ellipses when quiet; otherwise refuted by two witnesses."
  },
  {
   "property": "C24",
   "status": "partial",
   "theorems": [
    "C24_emittance_partial",
    "C24_crash_refuted"
   ],
   "note": "Proved for normal return; an exception inside the loop leaves the temporary value (refuted)."
  },
  {
   "property": "C25",
   "status": "proved",
   "theorems": [
    "C25_potential"
   ],
   "note": "Exact reals, every point."
  },
  {
   "property": "C26",
   "status": "proved",
   "theorems": [
    "C26_insert",
    "C26_bad_slices"
   ],
   "note": "Exact reals; every length, phase with sin(2 pi phase) not 0, and slice count."
  },
  {
   "property": "C27",
   "status": "partial",
   "theorems": [
    "C27_plain_attributes_partial",
    "C27_c_refuted",
    "C27_constructor_refuted"
   ],
   "note": "Assigning c raises NameError for every valid value, and the constructor does not validate (refuted)."
  },
  {
   "property": "C28",
   "status": "partial",
   "theorems": [
    "C28_any_order",
    "C28_first_order_partial",
    "C28_second_order_partial",
    "C28_missing_refuted",
    "C28_closed_forms_refuted"
   ],
   "note": "quad and fresnel are taken as the exact integrals. Any-order routine proved for every coefficient list; closed forms need a nonzero slope and a positive second coefficient (refuted otherwise, also with too few coefficients)."
  },
  {
   "property": "C29",
   "status": "partial",
   "theorems": [
    "C29_centroids_partial",
    "C29_coefficients_refuted"
   ],
   "note": "Partial: a slope that is not zero, or a positive second coefficient. Without a slope nothing is returned and with a negative second coefficient every turn but the first is nan (refuted)."
  },
  {
   "property": "C30",
   "status": "proved",
   "theorems": [
    "C30_phase_advance",
    "C30_range"
   ],
   "note": "Exact reals; all points, angles and scalings, both directions."
  },
  {
   "property": "C31",
   "status": "proved",
   "theorems": [
    "C31_tune_range"
   ],
   "note": "All signals and slices."
  },
  {
   "property": "C32",
   "status": "proved",
   "theorems": [
    "C32_charge",
    "C32_histogram",
    "C32_errors"
   ],
   "note": "All non-empty arrays, charges and bin numbers; also for get_histogram_points, and the error cases."
  },
  {
   "property": "C33",
   "status": "partial",
   "theorems": [
    "C33_symbols_partial",
    "C33_plain",
    "C33_balanced_partial",
    "C33_letter_refuted",
    "C33_scripts_refuted",
    "C33_all_strings"
   ],
   "note": "Exact characterisation for all strings of when a string is returned and which; false for letters without a Greek form and for unterminated scripts (refuted)."
  },
  {
   "property": "C34",
   "status": "partial",
   "theorems": [
    "C34_last_assignment",
    "C34_last_value_defined",
    "C34_element",
    "C34_get_and_in_refuted"
   ],
   "note": "All histories of assignments, ASCII names, for reads with []; dict.get and \"in\" do not ignore case (refuted)."
  },
  {
   "property": "C35",
   "status": "proved",
   "theorems": [
    "C35_flattens",
    "C35_expansion_unique",
    "C35_add_element",
    "C35_add_to_subline",
    "C35_add_beamline",
    "C35_failed_add"
   ],
   "note": "All histories of calls, including failed ones; plus the exact effect of every call on every sequence."
  },
  {
   "property": "C36",
   "status": "proved",
   "theorems": [
    "C36_length",
    "C36_edge",
    "C36_bounds",
    "C36_text_length",
    "C36_orphan"
   ],
   "note": "All histories. Also: a text length is a TypeError, and an element left out of every sequence by a failed call has the total length as edge."
  },
  {
   "property": "C37",
   "status": "partial",
   "theorems": [
    "C37_reuse_partial",
    "C37_first",
    "C37_through_parent_refuted",
    "C37_failed_call_refuted"
   ],
   "note": "Proved for additions through the same beamline object; false when the element came through the parent, and after a call that raised (refuted)."
  },
  {
   "property": "C38",
   "status": "partial",
   "theorems": [
    "C38_by_name_partial",
    "C38_beamline_name",
    "C38_by_index_partial",
    "C38_out_of_range",
    "C38_nested_refuted",
    "C38_other_position_refuted"
   ],
   "note": "Exact effect on every element and parameter; nested elements are not edited and a shared element is edited at every position (refuted)."
  },
  {
   "property": "C39",
   "status": "partial",
   "theorems": [
    "C39_roundtrip_partial",
    "C39_view_unique",
    "C39_load_into_used",
    "C39_two_sublines_refuted",
    "C39_nested_refuted",
    "C39_name_parameter_refuted"
   ],
   "note": "Proved for at most one sub-beamline of plain elements; two sub-beamlines are merged, nesting is flattened, and a parameter called name replaces the name (refuted)."
  },
  {
   "property": "C40",
   "status": "partial",
   "theorems": [
    "C40_product_partial",
    "C40_symplectic",
    "C40_motion",
    "C40_defined",
    "C40_parameters_refuted"
   ],
   "note": "Order and symplecticity proved; the matrix does not depend on the parameters of any element (refuted)."
  },
  {
   "property": "C41",
   "status": "proved",
   "theorems": [
    "C41_value",
    "C41_preceded",
    "C41_undefined",
    "C41_short_of_operands"
   ],
   "note": "Exact reals; pi is the literal the code uses. Every expression tree over + - * mult / sqrt, any spacing and quotation, whatever precedes it."
  },
  {
   "property": "C42",
   "status": "partial",
   "theorems": [
    "C42_expansion_partial",
    "C42_line_used_twice_refuted",
    "C42_nested_repetition_refuted",
    "C42_blank_before_repetition_refuted",
    "C42_quoted_line_refuted"
   ],
   "note": "Proved for every lattice whose expansion enters no line twice, with n*name and n*(names), and names of elements, of lines and of the selected line plain or in double quotes where they are defined. Refuted: a line used twice, nested repetition, a blank before a repetition, a line entered by a name in quotes. Names in single quotes are not covered."
  },
  {
   "property": "C43",
   "status": "partial",
   "theorems": [
    "C43_blank_line",
    "C43_comment_line_partial",
    "C43_comment_at_end_refuted",
    "C43_split_partial",
    "C43_split_refuted"
   ],
   "note": "Blank lines: full. Comment lines: proved when something follows them; otherwise the import always raises IndexError (refuted). Splits: proved up to the white space at the end of the line, whose loss changes an element type (refuted)."
  },
  {
   "property": "C44",
   "status": "partial",
   "theorems": [
    "C44_definition_partial",
    "C44_last_text_refuted",
    "C44_last_line_refuted"
   ],
   "note": "Values are reverse-Polish expressions or words, quoted or not. A text as last value keeps the newline and a definition without parameters at the end of the file loses a character (refuted)."
  },
  {
   "property": "C45",
   "status": "partial",
   "theorems": [
    "C45_expansion_partial",
    "C45_unknown_name",
    "C45_line_used_twice_refuted",
    "C45_nested_backwards_refuted",
    "C45_same_name_refuted"
   ],
   "note": "Partial: lines name no line twice, only lines of elements are taken backwards, names are unique; each of the three restrictions is shown necessary (refuted). The limit is the number of nested calls Python allows. The model starts from the loaded data."
  },
  {
   "property": "C46",
   "status": "partial",
   "theorems": [
    "C46_program_partial",
    "C46_missing_parameter",
    "C46_second_write_refuted",
    "C46_empty_refuted",
    "C46_capitals_refuted",
    "C46_after_failure_refuted"
   ],
   "note": "Proved for any write: definitions once, from the first element of the name, ahead of the sum, for the names the writer has not written before; hence complete for a new writer. A second write, an empty line, names differing in capitalisation and a write after a failure are refuted. The mapping is a parameter (built by sirepo)."
  },
  {
   "property": "C47",
   "status": "partial",
   "theorems": [
    "C47_gradient",
    "C47_conversion_partial",
    "C47_reference_momentum_refuted",
    "C47_slow_beam_refuted",
    "C47_no_setup"
   ],
   "note": "Exact reals. The conversion is right for the energy it is given, but is given the momentum as energy (refuted for every momentum); momenta below the mass give nan, zero raises."
  },
  {
   "property": "C48",
   "status": "partial",
   "theorems": [
    "C48_tracewin_partial",
    "C48_minus_refuted",
    "C48_exponent_refuted",
    "C48_comment_last_refuted",
    "C48_other_word_refuted",
    "C48_trace3d_refuted"
   ],
   "note": "Proved at character level for TraceWin decks of all seven cards in any capitalisation, with comments and blank lines, for numbers without exponent, negative ones with decimals. Refuted: minus sign without decimals, exponents, a comment behind the last card, any other word (END), and every Trace3D deck."
  },
  {
   "property": "C49",
   "status": "partial",
   "theorems": [
    "C49_frequency_refuted",
    "C49_dtl_cell_partial",
    "C49_ncells_partial"
   ],
   "note": "False for every deck: no cavity ever gets another frequency than 1 (refuted). Partial: the handlers use the frequency the parser keeps, if it kept one."
  },
  {
   "property": "C50",
   "status": "partial",
   "theorems": [
    "C50_deck_length",
    "C50_cavities_length_partial",
    "C50_phases_refuted",
    "C50_own_length_refuted",
    "C50_two_elements_refuted"
   ],
   "note": "Deck length: full for the decks of C48. Cavity post-processing: length proved for cavities without own length and three or more elements; all cavities get the phase of the last one, an own length is lost, a line of two doubles (refuted)."
  },
  {
   "property": "C51",
   "status": "partial",
   "theorems": [
    "C51_round_trip_partial",
    "C51_no_rows_refuted"
   ],
   "note": "Byte level. Partial: names, units and the like are plain text, there is at least one row and one column and, without the buffer, the second byte of the row count is not white space. A table without rows loses its column names (refuted for every such table)."
  },
  {
   "property": "C52",
   "status": "partial",
   "theorems": [
    "C52_quote_refuted",
    "C52_comma_refuted",
    "C52_blank_refuted",
    "C52_letter_refuted",
    "C52_metadata_partial"
   ],
   "note": "Partial: plain text without quotes, backslashes, line ends or a comma at the end, names without blanks; every mode and any mixture of column types, even if the save fails on the way. Quote, comma and blank are refuted."
  },
  {
   "property": "C53",
   "status": "partial",
   "theorems": [
    "C53_truncated_refuted",
    "C53_empty_refuted",
    "C53_finishes_partial"
   ],
   "note": "False: every file cut between header commands, and every empty file, is read for ever (refuted for all such files). Partial: opening ends once the data command is complete."
  },
  {
   "property": "C54",
   "status": "proved",
   "theorems": [
    "C54_first_line",
    "C54_header_line"
   ],
   "note": "All files, character level."
  },
  {
   "property": "C55",
   "status": "partial",
   "theorems": [
    "C55_blank_refuted",
    "C55_metadata",
    "C55_unbuffered",
    "C55_binary_partial",
    "C55_comments_partial"
   ],
   "note": "Descriptions: full. Data: full without the buffer; with it for binary pages, and for comments in ASCII files. An empty line in the header of a buffered ASCII file shifts the data (refuted)."
  },
  {
   "property": "C56",
   "status": "partial",
   "theorems": [
    "C56_pages_partial",
    "C56_ragged_refuted",
    "C56_empty_page_refuted"
   ],
   "note": "Byte level, any number of pages with the same non-zero number of rows, strings included. Pages of different lengths raise and empty pages are dropped (refuted for all such files)."
  },
  {
   "property": "C57",
   "status": "partial",
   "theorems": [
    "C57_unbuffered_refuted",
    "C57_selection_partial",
    "C57_strings_refuted",
    "C57_empty_refuted"
   ],
   "note": "Partial: fixed-size types, in the buffer, non-empty selection. With strings all earlier columns are returned, an empty selection raises, and without the buffer the wrong bytes are returned (refuted)."
  },
  {
   "property": "C58",
   "status": "partial",
   "theorems": [
    "C58_buffer_partial",
    "C58_ascii_partial",
    "C58_row_count_refuted"
   ],
   "note": "Partial: binary files whose row counts have no white space as second byte, and ASCII files of one page. 2560 to 2815 rows and similar counts make the file seem empty without the buffer (refuted)."
  },
  {
   "property": "C59",
   "status": "partial",
   "theorems": [
    "C59_empty_refuted",
    "C59_empty_partial",
    "C59_nul_refuted",
    "C59_long_refuted",
    "C59_not_ascii_refuted",
    "C59_strings_partial"
   ],
   "note": "Partial: ASCII strings that are not empty, not longer than the limit and do not end in NUL; the four other cases are refuted (in the buffer; without it an empty string is read)."
  },
  {
   "property": "C60",
   "status": "partial",
   "theorems": [
    "C60_two_pages_refuted",
    "C60_short_line_refuted",
    "C60_column_name_refuted",
    "C60_names_refuted",
    "C60_parameter_name_refuted",
    "C60_not_a_number_partial",
    "C60_word_refuted",
    "C60_integer_refuted",
    "C60_unbuffered_partial",
    "C60_one_page_partial"
   ],
   "note": "Partial: all pages without the buffer, if the first line of a page has more than one character; one page with the buffer. Both restrictions are refuted. An item alone on its line must be of its type (5.0 is not read as an integer), and names must not be changed in reading (file, print, return); both are refuted else."
  },
  {
   "property": "C61",
   "status": "partial",
   "theorems": [
    "C61_accumulates_partial",
    "C61_second_read_refuted"
   ],
   "note": "False: k reads leave k copies of all pages (proved for every k); refuted for every non-empty file."
  },
  {
   "property": "C62",
   "status": "partial",
   "theorems": [
    "C62_fixed_partial",
    "C62_zero_refuted",
    "C62_zero_read_refuted"
   ],
   "note": "Partial: non-zero, non-empty fixed values. Zero and the empty text are dropped and the rest of the file is misread (refuted)."
  },
  {
   "property": "C63",
   "status": "partial",
   "theorems": [
    "C63_other_files_partial",
    "C63_complete_partial",
    "C63_unequal_refuted",
    "C63_pack_refuted",
    "C63_crash_refuted"
   ],
   "note": "False: a failed or interrupted save leaves an empty or incomplete file, and columns of different lengths give an empty file without error (refuted for all writers). Partial: other files are untouched; a successful save leaves the complete header."
  },
  {
   "property": "C64",
   "status": "partial",
   "theorems": [
    "C64_one_type_partial",
    "C64_mixed_refuted",
    "C64_int64_refuted"
   ],
   "note": "Partial: all columns of one type (double, short, long). Mixed types and 64-bit integers are refuted."
  },
  {
   "property": "C65",
   "status": "partial",
   "theorems": [
    "C65_round_trip_partial",
    "C65_one_particle_refuted",
    "C65_no_particles_refuted",
    "C65_no_charge_refuted"
   ],
   "note": "Down to the bytes of the SDDS file. Numbers are reals; the bytes of a double and back are a parameter that is exact for the numbers at hand. Partial: at least two particles and a total charge; one particle, none, and a species without total charge are refuted."
  },
  {
   "property": "C66",
   "status": "proved",
   "theorems": [
    "C66_first_kept",
    "C66_stays"
   ],
   "note": "Over histories of reads and writes with files that change between calls. The object kept is the first one; the message printed is not modelled."
  },
  {
   "property": "C67",
   "status": "partial",
   "theorems": [
    "C67_last_partial",
    "C67_step_partial",
    "C67_absent_partial",
    "C67_no_steps_partial",
    "C67_zero_refuted"
   ],
   "note": "Partial: every k except 0. Asking for step 0 returns the last step (refuted). An HDF5 file is its groups with datasets and attributes."
  },
  {
   "property": "C68",
   "status": "proved",
   "theorems": [
    "C68_genesis",
    "C68_not_finite"
   ],
   "note": "The printing of numbers is a parameter. Times that are not finite make all times nan (second theorem)."
  },
  {
   "property": "C69",
   "status": "partial",
   "theorems": [
    "C69_unphysical_partial",
    "C69_unphysical_refuted"
   ],
   "note": "Some unphysical inputs are turned into finite answers (refuted); the partial theorem lists the inputs that are not."
  },
  {
   "property": "C70",
   "status": "proved",
   "theorems": [
    "C70_uniform_in_ball",
    "C70_uniform_ends"
   ],
   "note": "Exact reals, random stream as a function of the draw number."
  },
  {
   "property": "C71",
   "status": "partial",
   "theorems": [
    "C71_gauss_cutoff_partial",
    "C71_gauss_cutoff_refuted"
   ],
   "note": "The cut compares the square of the value with max_rms_fac: refuted for factors other than 1, exact guarantee proved."
  },
  {
   "property": "C72",
   "status": "partial",
   "theorems": [
    "C72_cleaned_partial",
    "C72_clean_refuted"
   ],
   "note": "False: normalisation moves the first particle; the exact relation between mean and variance is proved."
  },
  {
   "property": "C73",
   "status": "proved",
   "theorems": [
    "C73_reference_particle",
    "C73_peak_current"
   ],
   "note": "Exact reals."
  },
  {
   "property": "C74",
   "status": "proved",
   "theorems": [
    "C74_component_edits",
    "C74_arguments"
   ],
   "note": "All indices, values and arguments."
  },
  {
   "property": "C75",
   "status": "partial",
   "theorems": [
    "C75_args_passed_partial",
    "C75_zero_dropped_refuted"
   ],
   "note": "A lone 0 argument is dropped (refuted)."
  },
  {
   "property": "C76",
   "status": "partial",
   "theorems": [
    "C76_tone_tune_partial",
    "C76_offset_refuted"
   ],
   "note": "Proved when the offset is below half the amplitude; otherwise the tune comes out 0 (refuted)."
  },
  {
   "property": "C77",
   "status": "partial",
   "theorems": [
    "C77_phase_advance_partial",
    "C77_phase_refuted"
   ],
   "note": "Proved for phases strictly between 0 and 1/2; phases between 1/2 and 1 give the optics of 1-phase (refuted)."
  },
  {
   "property": "C78",
   "status": "proved",
   "theorems": [
    "C78_madx"
   ],
   "note": "The printed form of a float is a parameter."
  },
  {
   "property": "C79",
   "status": "partial",
   "theorems": [
    "C79_stored_partial",
    "C79_betay_refuted",
    "C79_cutoff_refuted",
    "C79_constructor"
   ],
   "note": "Proved for every keyword except betay (stored in betax, refuted) and cutoff (always NameError, refuted)."
  },
  {
   "property": "C80",
   "status": "partial",
   "theorems": [
    "C80_waterbag_partial",
    "C80_gaussian_partial",
    "C80_named_partial",
    "C80_unequal_betas_refuted"
   ],
   "note": "Partial: emittances up to 1e10, equal betas, and upright ellipses when quiet. With different betas a particle has more than twice the Hamiltonian allowed (refuted)."
  },
  {
   "property": "C81",
   "status": "partial",
   "theorems": [
    "C81_gaussian_partial",
    "C81_tilted_refuted"
   ],
   "note": "Upright ellipses only; alpha is ignored (refuted)."
  },
  {
   "property": "C82",
   "status": "proved",
   "theorems": [
    "C82_longitudinal"
   ],
   "note": "All draws."
  },
  {
   "property": "C83",
   "status": "partial",
   "theorems": [
    "C83_profile",
    "C83_disjoint",
    "C83_lines_partial",
    "C83_lines_refuted"
   ],
   "note": "All tables. Partial: the coloured lines drawn besides the rectangles are single points for the default scale only; for another scale they lie where there is no magnet (refuted)."
  },
  {
   "property": "C84",
   "status": "partial",
   "theorems": [
    "C84_conversion_partial",
    "C84_sextupole_refuted"
   ],
   "note": "False: the square of the rigidity is used, for every momentum (_refuted). Proved for every sextupole of every beamline: which field is given, and that it is the right one only for strength 0, momentum 0 or rigidity 1 (_partial)."
  },
  {
   "property": "C85",
   "status": "partial",
   "theorems": [
    "C85_converted_partial",
    "C85_anywhere_refuted",
    "C85_unconverted_refuted"
   ],
   "note": "False: six listed types get no strength and the write raises KeyError, wherever in a line they stand (_refuted). Proved: lattices of the other nine types are converted (_partial)."
  },
  {
   "property": "C86",
   "status": "partial",
   "theorems": [
    "C86_bends_partial",
    "C86_shared_edge_refuted"
   ],
   "note": "Proved for all lines in which no two bends share an edge; with a shared edge it raises halfway (refuted)."
  },
  {
   "property": "C87",
   "status": "partial",
   "theorems": [
    "C87_unbuffered_partial",
    "C87_ascii_partial",
    "C87_selection_partial",
    "C87_binary_partial",
    "C87_negative_refuted"
   ],
   "note": "Partial: without the buffer and with any page selection for every file; in the buffer for ASCII files and for well-formed binary files. A negative row count in a buffered binary file is read for ever (refuted)."
  },
  {
   "property": "C88",
   "status": "partial",
   "theorems": [
    "C88_numbers_partial",
    "C88_types_refuted"
   ],
   "note": "Partial: double, and long within 32 bits. Parameters of type short and string are accepted and can never be saved (refuted for every writer)."
  },
  {
   "property": "C89",
   "status": "partial",
   "theorems": [
    "C89_text_partial",
    "C89_short_line_refuted",
    "C89_only_integers_refuted",
    "C89_no_rows_refuted"
   ],
   "note": "Character level; the printing functions of Python and numpy are parameters of which only what they print for the values at hand is assumed. Partial: at least one row and column and, without the buffer, a first line of more than one character; both restrictions are refuted, and so is an only column of integers. Names must be kept in reading (C60). String parameters are not covered."
  },
  {
   "property": "C90",
   "status": "partial",
   "theorems": [
    "C90_genesis_refuted",
    "C90_unsupported_partial",
    "C90_writers_partial",
    "C90_unknown_name_partial"
   ],
   "note": "False for genesis, which is_supported accepts and read refuses (refuted). Partial: every other name is refused by both; genesis and opal can be written."
  },
  {
   "property": "C91",
   "status": "partial",
   "theorems": [
    "C91_opal_refuted",
    "C91_elegant_partial"
   ],
   "note": "False for OPAL: pz is stored as the total momentum, which holds exactly for particles without transverse momentum that do not move backwards (refuted as an equivalence). Partial: elegant stores column p."
  },
  {
   "property": "C92",
   "status": "partial",
   "theorems": [
    "C92_data_partial",
    "C92_fixed_refuted",
    "C92_zero_refuted",
    "C92_pages_refuted"
   ],
   "note": "Partial: a charge in the data of a single page. Several pages give a list of charges that cannot be written back for elegant, a fixed value in the header is ignored and an OPAL charge of zero raises or is replaced (refuted)."
  },
  {
   "property": "C93",
   "status": "partial",
   "theorems": [
    "C93_default_partial",
    "C93_missing_refuted",
    "C93_later_refuted"
   ],
   "note": "False: the species called species_0 is written, or KeyError is raised (refuted). Partial: if species_0 was registered first."
  },
  {
   "property": "C94",
   "status": "partial",
   "theorems": [
    "C94_rows_partial",
    "C94_one_row_refuted",
    "C94_pages_refuted"
   ],
   "note": "Partial: one page with two or more rows, or several pages with one row each. One row raises IndexError; several pages with several rows raise ValueError (refuted)."
  },
  {
   "property": "C95",
   "status": "proved",
   "theorems": [
    "C95_opal",
    "C95_from_opal"
   ],
   "note": "The printing of numbers is a parameter."
  },
  {
   "property": "C96",
   "status": "partial",
   "theorems": [
    "C96_cut_partial",
    "C96_unbuffered_refuted"
   ],
   "note": "Partial: with the buffer, for every header, page and cut position. Without it the rest of the page is returned without an error (refuted)."
  },
  {
   "property": "C97",
   "status": "proved",
   "theorems": [
    "C97_metadata",
    "C97_binary",
    "C97_ascii"
   ],
   "note": "Proved for all well formed headers and all ways of breaking commands outside quotes, with inner lines that do not hold the text &end and do not start with a comment mark."
  },
  {
   "property": "C98",
   "status": "partial",
   "theorems": [
    "C98_curves_partial",
    "C98_missing",
    "C98_symbol_refuted"
   ],
   "note": "Partial: symbols and units that can be formatted (C33). With a symbol code that is not known the plot raises KeyError (refuted). No page up to the one shown may be without rows. A missing quantity is always an error."
  },
  {
   "property": "C99",
   "status": "partial",
   "theorems": [
    "C99_panels_partial",
    "C99_empty_page_refuted"
   ],
   "note": "Partial: pages of particles with positive momentum, with no page without rows before. After a page without rows IndexError is raised (refuted)."
  },
  {
   "property": "C100",
   "status": "partial",
   "theorems": [
    "C100_current_partial",
    "C100_total",
    "C100_zero_charge",
    "C100_missing_refuted",
    "C100_empty_page_refuted"
   ],
   "note": "Partial: a charge is given or in the file. If the file has no charge ValueError is raised instead of a normalised profile (refuted); a charge of zero in the file gives that profile. The reader drops pages without rows, but not their parameters, so that a page number then means two different pages (refuted)."
  },
  {
   "property": "C101",
   "status": "partial",
   "theorems": [
    "C101_projections_partial",
    "C101_planes_partial",
    "C101_empty_page_refuted"
   ],
   "note": "Partial: pages of particles with no page without rows before. After a page without rows IndexError is raised (refuted)."
  },
  {
   "property": "C102",
   "status": "partial",
   "theorems": [
    "C102_count_partial",
    "C102_checked",
    "C102_round_trip",
    "C102_replaced_refuted",
    "C102_failed_read_refuted",
    "C102_named",
    "C102_refused"
   ],
   "note": "Partial: the number is right over all histories without set_array_6d from files with 6 by N arrays. After set_array_6d it is stale, and a failing read_array leaves the bad array in the object (both refuted). The file round trip is proved in full, and so is that the setters refuse exactly an empty name and a count that is not positive, change nothing then, and the name is never empty."
  },
  {
   "property": "C103",
   "status": "partial",
   "theorems": [
    "C103_figure",
    "C103_label_partial",
    "C103_label_refuted",
    "C103_plotter"
   ],
   "note": "Partial: labels of up to five characters; longer ones are cut (refuted). Figures are proved in full."
  },
  {
   "property": "C104",
   "status": "partial",
   "theorems": [
    "C104_levels_partial",
    "C104_cover_partial",
    "C104_constant_refuted",
    "C104_small_refuted",
    "C104_few_refuted"
   ],
   "note": "Partial: fields that are not constant and positive; the default arguments cover the field if its largest absolute value is at least 0.011. Constant fields, small fields and few levels do not (refuted)."
  },
  {
   "property": "C105",
   "status": "partial",
   "theorems": [
    "C105_all",
    "C105_combo",
    "C105_dense_partial",
    "C105_sparse_refuted",
    "C105_grid_refuted",
    "C105_scales",
    "C105_scale_refuted"
   ],
   "note": "Partial: contour and combined plots are drawn if there are more than 1 or 8 particles per cell on average. Few particles always raise ValueError, grids always raise, and combined plots ignore the kind of axes (refuted). The outlines and the test of points are parameters."
  },
  {
   "property": "C106",
   "status": "partial",
   "theorems": [
    "C106_import_refuted",
    "C106_before_partial"
   ],
   "note": "False: KG_to_EV is computed from names assigned later, so that the import raises NameError (refuted). Partial: the two assignments before it."
  },
  {
   "property": "C107",
   "status": "partial",
   "theorems": [
    "C107_quantities",
    "C107_silent",
    "C107_input_partial",
    "C107_input_refuted",
    "C107_mass_partial"
   ],
   "note": "Partial: the line about the input is right when no conversion applies to it. For SI input of momentum or energy the converted number is shown beside the SI unit (refuted). The line about the mass is right in the cases of C05. The eight quantities are proved in full."
  },
  {
   "property": "C108",
   "status": "proved",
   "theorems": [
    "C108_accepts",
    "C108_same_as_keywords",
    "C108_report"
   ],
   "note": "Proved for command lines as lists of options with their numbers already read; argparse itself is modelled, not its source."
  },
  {
   "property": "C109",
   "status": "partial",
   "theorems": [
    "C109_history_partial",
    "C109_quiet_partial",
    "C109_twiss",
    "C109_answers",
    "C109_history_refuted"
   ],
   "note": "Partial: every question about the spread moves the first particle towards the centroid of the others by a factor of the number of particles, proved exactly for all histories; all else stays. If the first particle is on the centroid nothing changes. In general the answers change: the peak current of two particles doubles when asked again (refuted). Arrays with infinities are not modelled."
  },
  {
   "property": "C110",
   "status": "partial",
   "theorems": [
    "C110_arguments",
    "C110_as_asked_partial",
    "C110_by_name",
    "C110_as_asked_refuted"
   ],
   "note": "Partial: if the first particle of the draws is on their centroid, moments and Twiss parameters are exactly those asked for (except negative alpha with beta equal to gamma, C16). In general they are not: seven particles are neither centred nor matched (refuted). The arguments are proved in full."
  },
  {
   "property": "C111",
   "status": "partial",
   "theorems": [
    "C111_exact_refuted",
    "C111_solver_returns_partial",
    "C111_five_passes_partial",
    "C111_decorrelation_returns_partial",
    "C111_independent_planes_partial"
   ],
   "note": "Partial: symmetric matrices, and beams with the first particle on the centroid, in which no coordinate is correlated with more than one other (independent planes for instance): at most five passes. Refuted in exact arithmetic for others: the loop stops when all correlations are exactly zero, and for a beam of eleven particles with three correlated coordinates no number of passes gets there, because its eigenvalues are not reached by square roots; what ends the loop on a computer is rounding, which is not modelled."
  },
  {
   "property": "C112",
   "status": "partial",
   "theorems": [
    "C112_accepted",
    "C112_which_error",
    "C112_after_failure_partial",
    "C112_component_edits",
    "C112_harmless_partial",
    "C112_failure_changes_beam_refuted"
   ],
   "note": "Partial: nothing changes if the first plane is refused or a component edit is. If a later plane is refused the planes before it are already matched (proved exactly), and a corrected second call matches them twice (refuted)."
  },
  {
   "property": "C113",
   "status": "proved",
   "theorems": [
    "C113_min",
    "C113_max",
    "C113_empty",
    "C113_any_order",
    "C113_mean_between",
    "C113_centred"
   ],
   "note": "Full; an array of six rows of equal length, exact arithmetic. nan is outside the model."
  },
  {
   "property": "C114",
   "status": "partial",
   "theorems": [
    "C114_unchanged_partial",
    "C114_repeat_refuted",
    "C114_edit_partial",
    "C114_edit_refuted",
    "C114_load_partial",
    "C114_load_first",
    "C114_load_refuted"
   ],
   "note": "Partial: add_element, add_beamline and edits by position leave everything as it was, though a failed add_element can fix what its name stands for in later calls (refuted). An edit by name that meets a beamline of that name has already edited the elements before it (exactly those, proved; refuted as a whole). A load that raises leaves the other beamlines and all elements they had as they were, and can be repeated if it raised at its first entry; otherwise it keeps what it had loaded and a corrected second load is passed over in silence (refuted)."
  },
  {
   "property": "C115",
   "status": "partial",
   "theorems": [
    "C115_set_first_partial",
    "C115_name_ignored_refuted",
    "C115_corrected_refuted",
    "C115_again_refuted",
    "C115_uses_refuted"
   ],
   "note": "Partial: true for a name set before the first call and written in small letters (up to the name of the beamline object). Refuted after a call: the first result is returned again, longer, for every file; the name set is ignored; a call that follows one for a missing line returns an empty beamline without an error; capitals are accepted by the constructor only."
  },
  {
   "property": "C116",
   "status": "partial",
   "theorems": [
    "C116_calls_partial",
    "C116_again_refuted",
    "C116_comments_refuted",
    "C116_other_word_refuted",
    "C116_first_call"
   ],
   "note": "Partial: the first call only, for the decks of C48. Proved exactly for any number of calls: the n-th call leaves n copies of the deck in the one beamline, which earlier calls returned too (refuted). Comments behind the last card make a call raise and are then gone, one per call, so that a later call succeeds (refuted). With another word each call raises and adds the cards in front of it again (refuted)."
  },
  {
   "property": "C117",
   "status": "proved",
   "theorems": [
    "C117_faster",
    "C117_heavier"
   ],
   "note": "Proved for the eight reported quantities, particles that do not move backwards, and constants of positive value."
  },
  {
   "property": "C118",
   "status": "proved",
   "theorems": [
    "C118_moved",
    "C118_any_order",
    "C118_zero",
    "C118_extent"
   ],
   "note": "Proved for every beam of at least one particle, in exact arithmetic."
  },
  {
   "property": "C119",
   "status": "proved",
   "theorems": [
    "C119_negative",
    "C119_point",
    "C119_order",
    "C119_unchanged",
    "C119_nearest"
   ],
   "note": "Proved for every real and every n from 1, in exact arithmetic (round half to even)."
  },
  {
   "property": "C120",
   "status": "partial",
   "theorems": [
    "C120_linear_partial",
    "C120_units",
    "C120_linear_refuted"
   ],
   "note": "Partial: linear maps for beams whose first particle sits on the centroid; refuted otherwise (a drift of length one raises the square of the emittance of a beam of three from 11/9 to 24/9), because the correlations leave the first particle out. Change of units, signs and origin proved for every beam."
  },
  {
   "property": "C121",
   "status": "proved",
   "theorems": [
    "C121_joined",
    "C121_row"
   ],
   "note": "Proved for elements of the types the code has matrices for and a strength that is not zero."
  },
  {
   "property": "C122",
   "status": "proved",
   "theorems": [
    "C122_directions",
    "C122_sum",
    "C122_amplitude",
    "C122_backwards",
    "C122_turns"
   ],
   "note": "Proved in exact arithmetic; where several spectral lines are equally high the first one is meant."
  },
  {
   "property": "C123",
   "status": "proved",
   "theorems": [
    "C123_total",
    "C123_scales",
    "C123_shape"
   ],
   "note": "Proved, with an explicit bound of the error, for phases between 0 and 1/2 (the sum) and all phases with a focal length (the rest)."
  },
  {
   "property": "C124",
   "status": "partial",
   "theorems": [
    "C124_rows_partial",
    "C124_extra_refuted",
    "C124_count_refuted",
    "C124_array_partial"
   ],
   "note": "Partial: proved for values too few, rows of different lengths, and any misfit of a single column. Refuted: when all rows have too many values the last ones are dropped silently, and a page cut off returns the rows that are left without an error."
  },
  {
   "property": "C125",
   "status": "partial",
   "theorems": [
    "C125_file_partial",
    "C125_buffer_partial",
    "C125_no_parameters_refuted",
    "C125_two_pages_refuted",
    "C125_zero_flag_refuted"
   ],
   "note": "Proved for files read from disk (any number of pages) and for one buffered page. Refuted: several buffered pages; files without parameters cannot be opened (IndexError); no_row_counts=0 is taken for set."
  },
  {
   "property": "C126",
   "status": "partial",
   "theorems": [
    "C126_script_partial",
    "C126_character_refuted"
   ],
   "note": "Proved for the types double, short, long and string. The class documents the type character too, which is refused (refuted)."
  },
  {
   "property": "C127",
   "status": "partial",
   "theorems": [
    "C127_share",
    "C127_order",
    "C127_shape",
    "C127_zero_refuted",
    "C127_nothing_refuted"
   ],
   "note": "Shares, order, zero density and shape proved for all densities. The number 0, which the generator may return, draws the lower bound even where the density is zero there, and a density that is zero on the whole grid silently gives the lower bound for every sample (both refuted for all such densities)."
  },
  {
   "property": "C128",
   "status": "partial",
   "theorems": [
    "C128_amplitude",
    "C128_fraction",
    "C128_mirror_partial",
    "C128_mirror_refuted",
    "C128_zeros_partial",
    "C128_zero_refuted",
    "C128_no_spread",
    "C128_dies_out",
    "C128_vanishes"
   ],
   "note": "Amplitude, fraction, no spread, decay and its limit proved for all usable coefficients. The sign symmetry fails with exactly two coefficients (nan) and one zero appended to one coefficient raises ZeroDivisionError; both are refuted for all such settings and the rest proved (_partial)."
  },
  {
   "property": "C129",
   "status": "partial",
   "theorems": [
    "C129_vacuum_partial",
    "C129_lines_refuted",
    "C129_scale",
    "C129_strength",
    "C129_axes"
   ],
   "note": "Laplace's equation proved at all points off the two half lines that go outwards from the singular points (_partial), with the whole plane otherwise; on those half lines the potential is finite and has a kink for every strength but zero (refuted). Scale, strength and axes proved in full."
  },
  {
   "property": "C130",
   "status": "partial",
   "theorems": [
    "C130_points",
    "C130_arrival",
    "C130_charge",
    "C130_stretch_partial",
    "C130_stretch_refuted",
    "C130_order"
   ],
   "note": "All proved. The stretch holds when not all particles arrive at the same time (_partial); when they do, the bins are one unit of time wide in any unit, so the current does not follow (refuted for all such bunches)."
  },
  {
   "property": "C131",
   "status": "partial",
   "theorems": [
    "C131_stored_partial",
    "C131_values_partial",
    "C131_part_of_word_refuted",
    "C131_start_of_line_refuted",
    "C131_from_variable_refuted",
    "C131_stored_twice_refuted"
   ],
   "note": "Proved for names set off by separators that are part of no other word, name or value in the file (_partial). Refuted otherwise: a variable named l makes the beamline disappear; in a line that starts with the name nothing is replaced; a variable cannot be computed from another; of two values stored under a name the first is used throughout."
  },
  {
   "property": "C132",
   "status": "partial",
   "theorems": [
    "C132_reported_partial",
    "C132_comma_refuted",
    "C132_twice_refuted"
   ],
   "note": "Proved for distinct names and texts without a comma at the end (_partial). Refuted: a comma at the end of a text is lost, also in quotes; of two parameters of one name the second is reported for both."
  },
  {
   "property": "C133",
   "status": "partial",
   "theorems": [
    "C133_little_partial",
    "C133_text_partial",
    "C133_parameters_refuted",
    "C133_long_refuted",
    "C133_rows_refuted"
   ],
   "note": "Files with the least significant byte first and text files are read (_partial). Refuted for the other order, which the header states and the documentation excludes: without columns every number comes back with its bytes in the other direction (a long from 1 to 127 times 16777216), and with columns of numbers every file below 16 MB whose first page has 1 to 127 rows raises ValueError."
  },
  {
   "property": "C134",
   "status": "proved",
   "theorems": [
    "C134_reads",
    "C134_only_complete",
    "C134_last",
    "C134_elegant_keyword"
   ],
   "note": "An attribute TotalCharge that is zero counts as missing, as in the code. The keys of a file are different from each other."
  },
  {
   "property": "C135",
   "status": "partial",
   "theorems": [
    "C135_to_elegant_partial",
    "C135_momentum_refuted",
    "C135_order_refuted",
    "C135_to_opal_partial",
    "C135_back_refuted"
   ],
   "note": "Down to the bytes of the elegant file. Positions, slopes and charge are right in both directions (_partial). Refuted: the size of the momentum changes for every particle that does not move along the axis, smaller in the elegant file and larger in the OPAL file; and times are taken for positions with the same sign, so that the particle further ahead is said to arrive later. Numbers are reals that are doubles, momenta along the axis are not zero."
  },
  {
   "property": "C136",
   "status": "partial",
   "theorems": [
    "C136_length_partial",
    "C136_any_order_partial",
    "C136_text",
    "C136_used_twice_refuted"
   ],
   "note": "Proved for the lattices of C42 (_partial). Refuted for lines used twice: two cells of length 3 are 12 long."
  },
  {
   "property": "C137",
   "status": "partial",
   "theorems": [
    "C137_same_elements_partial",
    "C137_length_partial",
    "C137_backwards_partial",
    "C137_text",
    "C137_used_twice_refuted"
   ],
   "note": "Proved where no line names one line twice (_partial). Refuted otherwise: two cells of length 3 are 12 long. Unlike C45 nothing is asked of lines taken backwards, only the order can differ there."
  },
  {
   "property": "C138",
   "status": "partial",
   "theorems": [
    "C138_program_partial",
    "C138_no_strength",
    "C138_straight_bend",
    "C138_capitals_refuted"
   ],
   "note": "Proved for the lattices of C45 without the unconverted types, with names that differ in more than capitals, for the total energy p_central_mev (_partial). False when names differ in capitals only: the second element gets the length of the first (_capitals_refuted). Missing: C84 (sextupoles get the square of the rigidity), C85 (types not converted), C47 (the reference momentum is taken as the energy)."
  },
  {
   "property": "C139",
   "status": "partial",
   "theorems": [
    "C139_elegant_partial",
    "C139_records_partial",
    "C139_repeated_refuted"
   ],
   "note": "Proved for the lattices of C42 and C45 whose elements occur once each (_partial). Refuted otherwise: an element that occurs twice has one position, that of its first occurrence."
  },
  {
   "property": "C140",
   "status": "partial",
   "theorems": [
    "C140_flat_partial",
    "C140_lines_refuted",
    "C140_types_refuted",
    "C140_records_refuted"
   ],
   "note": "Proved for elegant files, lines without lines in them, elements of the types drift and quadrupole, and the matrix in the variables K1 and L (_partial). Refuted for every other case: a line in the line gives AttributeError, and a lattice whose types are those of elegant (drif, quad) or of Sirepo gives KeyError or AttributeError. The numbers of the elements do not enter (C40)."
  },
  {
   "property": "C141",
   "status": "partial",
   "theorems": [
    "C141_same_partial",
    "C141_two_lines_refuted"
   ],
   "note": "Proved for lines with at most one line in them and no parameter called name or type (_partial). Refuted for two lines in a line: the loaded beamline has every element twice."
  },
  {
   "property": "C142",
   "status": "partial",
   "theorems": [
    "C142_type",
    "C142_values_partial",
    "C142_name_refuted",
    "C142_sign_refuted",
    "C142_label_refuted",
    "C142_open_refuted"
   ],
   "note": "The type is proved for every line whose name has no equals sign. The values are proved for names without a( and for numbers without exponent and, if negative, with decimals (_partial). Refuted: a name with a( in it makes the type the first value; a negative number without decimals loses its sign; the name returned is the index i, never the name; without the closing bracket the last character of the index is lost."
  },
  {
   "property": "C143",
   "status": "partial",
   "theorems": [
    "C143_order_partial",
    "C143_numbers_refuted",
    "C143_others_refuted"
   ],
   "note": "Proved: decks of drifts and quadrupoles have the product of the matrices of their cards in this order, in the variables K1 and L (_partial). Refuted: the numbers of the cards are never put in, so decks with the same words have the same matrix; any other card (frequency, cavity, DTL cell, field map, sync phase) makes generate_matrix raise KeyError."
  },
  {
   "property": "C144",
   "status": "partial",
   "theorems": [
    "C144_same_partial",
    "C144_field_map_refuted"
   ],
   "note": "Proved for decks without field maps (_partial). Refuted for field maps: their first number is the parameter TYPE, which the file of the saved beamline uses for the type of the element, so it is lost."
  },
  {
   "property": "C145",
   "status": "proved",
   "theorems": [
    "C145_cards",
    "C145_cell"
   ],
   "note": "Proved for every deck of C48."
  },
  {
   "property": "C146",
   "status": "partial",
   "theorems": [
    "C146_rows_partial",
    "C146_checked",
    "C146_foreign_refuted"
   ],
   "note": "Proved over all histories without set_array_6d from files with 6 by N arrays (_partial), and for any array once check_array has succeeded. Refuted after set_array_6d: with fewer than six rows get_array_dp raises IndexError, and with another number of columns the coordinates are not as many as get_num_ptcls says."
  },
  {
   "property": "C147",
   "status": "proved",
   "theorems": [
    "C147_history",
    "C147_affine",
    "C147_order",
    "C147_moments",
    "C147_undone"
   ],
   "note": "Proved in full, in exact arithmetic."
  }
 ]
}