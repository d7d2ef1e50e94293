{
 "claims": [
  {
   "property": "C01",
   "status": "proved",
   "theorems": [
    "C01_bins_cover_all_diameters"
   ],
   "note": "Proved for all inputs of the model."
  },
  {
   "property": "C02",
   "status": "proved",
   "theorems": [
    "C02_bins_consecutive_on_fixed_grid",
    "C02_bins_strictly_ascending",
    "C02_bins_of_two_counts_comparable"
   ],
   "note": "Proved for all inputs of the model."
  },
  {
   "property": "C03",
   "status": "proved",
   "theorems": [
    "C03_binning_conserves_craters",
    "C03_each_crater_in_exactly_one_bin",
    "C03_binning_total_and_exact"
   ],
   "note": "Proved for all inputs of the model."
  },
  {
   "property": "C04",
   "status": "proved",
   "theorems": [
    "C04_cumulative_counts",
    "C04_unbinned_counts"
   ],
   "note": "Proved for all inputs of the model."
  },
  {
   "property": "C05",
   "status": "proved",
   "theorems": [
    "C05_binning_order_independent"
   ],
   "note": "Proved for all inputs of the model."
  },
  {
   "property": "C06",
   "status": "proved",
   "theorems": [
    "C06_history_independent_refuted",
    "C06_getplotdata_history_independent",
    "C06_decode_range_history_independent",
    "C06_calls_never_change_the_craters",
    "C06_prebinned_counts_immutable"
   ],
   "note": "Exception found: apply_binning(binning, offset) caches under the binning name only, so a later getplotdata/decode_range with the same binning name uses the offset bins; without offsets the claim holds for every history."
  },
  {
   "property": "C07",
   "status": "proved",
   "theorems": [
    "C07_bin_numbers_address_populated_bins",
    "C07_bin_numbers_any_bins",
    "C07_no_populated_bin"
   ],
   "note": "Proved for all inputs of the model."
  },
  {
   "property": "C08",
   "status": "proved",
   "theorems": [
    "C08_snapping_extends_to_nearest_boundaries",
    "C08_snapping_idempotent",
    "C08_without_snapping_only_ordered"
   ],
   "note": "Proved for all inputs of the model."
  },
  {
   "property": "C09",
   "status": "proved",
   "theorems": [
    "C09_fit_counts_craters_of_the_range",
    "C09_fit_and_poisson_count_the_same_craters"
   ],
   "note": "Proved for all inputs of the model."
  },
  {
   "property": "C10",
   "status": "proved",
   "theorems": [
    "C10_plotted_points",
    "C10_values_scale_inversely_with_area",
    "C10_relative_error",
    "C10_differential_relative_error_refuted",
    "C10_hartmann_is_root2_incremental_refuted"
   ],
   "note": "Exception found: differential error bars are not bias-corrected, so their relative error is the bias factor times 1/sqrt(n); Hartmann values in root-2 bins are 2^(1/4) times the incremental density."
  },
  {
   "property": "C11",
   "status": "proved",
   "theorems": [
    "C11_correction_exact_for_power_laws",
    "C11_exponent_of_power_law",
    "C11_correction_symmetric",
    "C11_correction_relative_to_one",
    "C11_correction_continuous_refuted"
   ],
   "note": "Exception found: continuity in k fails at 0: for |k|<1e-5 the function returns 1 although the limit is below 1."
  },
  {
   "property": "C12",
   "status": "proved",
   "theorems": [
    "C12_pdf_is_a_distribution",
    "C12_pdf_is_the_poisson_likelihood",
    "C12_when_the_pdf_exists",
    "C12_every_count_has_a_pdf_refuted",
    "C12_buffered_pdf_is_a_distribution",
    "C12_buffered_needs_perimeter"
   ],
   "note": "Exception found: if the likelihood sums to less than 1e-30 and the count exceeds the expected number at the end of the age axis, building the pdf raises IndexError."
  },
  {
   "property": "C13",
   "status": "proved",
   "theorems": [
    "C13_percentiles_ordered_and_in_range",
    "C13_median1sigma_order",
    "C13_percentile_inverts_the_cdf",
    "C13_cumulative_fraction_is_a_cdf"
   ],
   "note": "Proved for all inputs of the model."
  },
  {
   "property": "C14",
   "status": "proved",
   "theorems": [
    "C14_gaussian_percentiles"
   ],
   "note": "Proved for all inputs of the model."
  },
  {
   "property": "C15",
   "status": "proved",
   "theorems": [
    "C15_sequence_probability_in_unit_interval",
    "C15_sum_of_both_probabilities",
    "C15_complementary_without_first_weight",
    "C15_complementary_refuted"
   ],
   "note": "Exception found: np.roll wraps the last cumulative value round to the first cell, so P(A<B)+P(B<A) exceeds 1 by half the sum of the two first weights (numerically tiny but never 0)."
  },
  {
   "property": "C16",
   "status": "proved",
   "theorems": [
    "C16_counts_half_open_range",
    "C16_adjacent_ranges_add",
    "C16_adjacent_ranges_add_binned"
   ],
   "note": "Proved for all inputs of the model."
  },
  {
   "property": "C17",
   "status": "proved",
   "theorems": [
    "C17_density_starts_at_zero",
    "C17_density_increases",
    "C17_rate_is_the_derivative",
    "C17_needs_four_coefficients"
   ],
   "note": "Proved for all inputs of the model."
  },
  {
   "property": "C18",
   "status": "proved",
   "theorems": [
    "C18_exact_at_table_ages",
    "C18_within_one_step",
    "C18_monotone",
    "C18_strictly_monotone_inside",
    "C18_clamped",
    "C18_a0_inverse"
   ],
   "note": "Proved for all inputs of the model."
  },
  {
   "property": "C19",
   "status": "proved",
   "theorems": [
    "C19_density_at_1km",
    "C19_a0_scales_every_presentation"
   ],
   "note": "Proved for all inputs of the model."
  },
  {
   "property": "C20",
   "status": "proved",
   "theorems": [
    "C20_presentations_of_one_function",
    "C20_table_R_is_cube_times_F",
    "C20_table_differential_at_bin_means"
   ],
   "note": "Proved for all inputs of the model."
  },
  {
   "property": "C21",
   "status": "proved",
   "theorems": [
    "C21_given_a0_replaces_own",
    "C21_own_a0_when_omitted",
    "C21_table_honours_every_a0",
    "C21_zero_a0_is_ignored_refuted"
   ],
   "note": "Exception found: for polynomial production functions a0=0 (one crater per km2) is treated as omitted and the function's own first coefficient is used."
  },
  {
   "property": "C22",
   "status": "proved",
   "theorems": [
    "C22_table_gives_table_densities",
    "C22_incremental_is_cumulative_difference"
   ],
   "note": "Proved for all inputs of the model."
  },
  {
   "property": "C23",
   "status": "proved",
   "theorems": [
    "C23_fit_is_the_weighted_least_squares_optimum",
    "C23_limits_bracket_the_fit",
    "C23_empty_range_exits"
   ],
   "note": "Proved for all inputs of the model."
  },
  {
   "property": "C24",
   "status": "proved",
   "theorems": [
    "C24_isochron_without_equilibrium",
    "C24_isochron_cut_at_equilibrium",
    "C24_below_equilibrium_range_refuted"
   ],
   "note": "Exception found: isochron points at or below the smallest tabulated equilibrium diameter are compared with the equilibrium value at the LARGEST diameter (index -1 wraps)."
  },
  {
   "property": "C25",
   "status": "proved",
   "theorems": [
    "C25_pieces",
    "C25_lossless",
    "C25_replace_extension",
    "C25_directory",
    "C25_brackets_refuted",
    "C25_parent",
    "C25_list"
   ],
   "note": "Proved for all inputs of the model."
  },
  {
   "property": "C26",
   "status": "proved",
   "theorems": [
    "C26_correctly_rounded",
    "C26_shows_all_figures"
   ],
   "note": "Proved for all inputs of the model."
  },
  {
   "property": "C27",
   "status": "proved",
   "theorems": [
    "C27_value_and_unit",
    "C27_errors",
    "C27_forced_unit",
    "C27_simple",
    "C27_at_most_1000",
    "C27_below_1000_refuted",
    "C27_one_figure_with_errors_fails"
   ],
   "note": "Exception found: an age within half a unit of its last figure below 1000 is printed as 1000 in the smaller unit (0.9999 Ga prints as 1000 Ma); with sf=1 and errors the call raises ValueError."
  },
  {
   "property": "C28",
   "status": "proved",
   "theorems": [
    "C28_words_recovered",
    "C28_quoting_all",
    "C28_strip_quotes",
    "C28_final_backslash_refuted"
   ],
   "note": "Exception found: a quoted word that contains a backslash just before its closing quote (a Windows directory name) swallows the closing quote and the words after it."
  },
  {
   "property": "C29",
   "status": "proved",
   "theorems": [
    "C29_round_trip",
    "C29_single_empty_line_refuted",
    "C29_append",
    "C29_other_files_unchanged",
    "C29_comments_dropped",
    "C29_trailing_comment_stripped",
    "C29_no_comment_untouched"
   ],
   "note": "Exception found: a file of exactly one empty line is read back as no lines."
  },
  {
   "property": "C30",
   "status": "proved",
   "theorems": [
    "C30_reading",
    "C30_file",
    "C30_lines",
    "C30_table",
    "C30_repeated_list_refuted",
    "C30_empty_value_refuted",
    "C30_text_block_refuted",
    "C30_nested_refuted"
   ],
   "note": "Exception found: a key written several times whose last value is a list has its earlier values put into that list instead; an empty value followed by an indented line takes that line as its value; a quoted text block ends at the last line of the file that starts with a quotation mark; structures inside structures are cut off."
  },
  {
   "property": "C31",
   "status": "proved",
   "theorems": [
    "C31_additive",
    "C31_exact",
    "C31_diam_input_refuted"
   ],
   "note": "Exception found: fractions and areas keep six significant figures and diameters the printed form; a .diam input has no perimeter, so merging with one raises TypeError instead of writing the file."
  },
  {
   "property": "C32",
   "status": "proved",
   "theorems": [
    "C32_bins",
    "C32_upper_edges",
    "C32_exact",
    "C32_computed_bins",
    "C32_gap_refuted",
    "C32_last_bin_refuted",
    "C32_single_bin_refuted"
   ],
   "note": "Exception found: numbers keep five figures; bins without craters are not written, so a bin before a gap is read as reaching to the next populated bin; the last upper edge is extrapolated from the last two lower edges; a file with one populated bin cannot be read (IndexError)."
  },
  {
   "property": "C33",
   "status": "proved",
   "theorems": [
    "C33_decode",
    "C33_full_name",
    "C33_shipped_names",
    "C33_full_name_refuted"
   ],
   "note": "Exception found: where ambiguity is not allowed a full name that is a subsequence of another item is rejected; no list shipped with the program contains such a pair."
  },
  {
   "property": "C34",
   "status": "proved",
   "theorems": [
    "C34_carry_over",
    "C34_source",
    "C34_carry_over_refuted"
   ],
   "note": "Exception found: type is inherited even when a new source is given; and with -i a source inherited from the previous overplot has the directory of the command file put in front of it a second time."
  },
  {
   "property": "C35",
   "status": "proved",
   "theorems": [
    "C35_round_trip",
    "C35_written",
    "C35_round_trip_refuted"
   ],
   "note": "Exception found: an empty argument (-title '') raises IndexError before anything is written; an argument that starts with a dash and needs quoting (-title '-my title') is split on re-reading; a line break inside an argument followed by a blank line or # is lost."
  },
  {
   "property": "C36",
   "status": "proved",
   "theorems": [
    "C36_settings",
    "C36_formats",
    "C36_settings_refuted"
   ],
   "note": "Exception found: -text_halo 0 is overridden by the default; with -f the extension of -o is dropped; in Hartmann plots -xrange and -yrange are ignored."
  },
  {
   "property": "C37",
   "status": "proved",
   "theorems": [
    "C37_found",
    "C37_relative",
    "C37_found_refuted"
   ],
   "note": "Exception found: a relative name with an existing directory part is looked up inside that directory a second time (the program changes into it first), so -i runs/a.cs fails."
  },
  {
   "property": "C38",
   "status": "proved",
   "theorems": [
    "C38_selection",
    "C38_none"
   ],
   "note": "Proved for all inputs of the model."
  },
  {
   "property": "C39",
   "status": "proved",
   "theorems": [
    "C39_pairs",
    "C39_repeated"
   ],
   "note": "Proved for all inputs of the model."
  },
  {
   "property": "C40",
   "status": "proved",
   "theorems": [
    "C40_shows_all_data",
    "C40_smallest",
    "C40_padding",
    "C40_forced",
    "C40_no_plot_refuted",
    "C40_empty_first_refuted"
   ],
   "note": "Exception found: with no drawable plot it raises TypeError even if both ranges are given; if the first plot is empty the default ranges are used although other plots have data; the odd decade left over goes on the side with more room on the x axis of non-differential plots, but on the side with less room elsewhere."
  },
  {
   "property": "C41",
   "status": "proved",
   "theorems": [
    "C41_one_entry_per_plot",
    "C41_count_text",
    "C41_names_only_refuted",
    "C41_binned_fractions_refuted",
    "C41_underscore_refuted"
   ],
   "note": "Exception found: a -legend with none of c, r, N makes a fit swallow the entry of the plot before it (data and fit with 'n' give no legend at all); a plot whose label is 'fit' or begins with an underscore has no entry; a fit to a binned file with fractional counts raises ValueError as soon as the legend asks for counts, which it does by default."
  },
  {
   "property": "C42",
   "status": "proved",
   "theorems": [
    "C42_rows",
    "C42_no_ages",
    "C42_text",
    "C42_mixed_types_refuted",
    "C42_comma_refuted"
   ],
   "note": "Exception found: the last plot decides which range column all rows use, so a fit after a Poisson age raises TypeError; a comma in a name moves the columns of its row."
  },
  {
   "property": "C43",
   "status": "proved",
   "theorems": [
    "C43_ticks",
    "C43_two_ticks_refuted",
    "C43_no_extent"
   ],
   "note": "Exception found: with max_ticks 1 or 2 (or negative) and data on both sides of zero the search never ends, as no two multiples of a step enclose them (with floating numbers it ends when the multiplier underflows, with one nan tick); data without extent raise ValueError."
  },
  {
   "property": "C44",
   "status": "proved",
   "theorems": [
    "C44_population",
    "C44_ends",
    "C44_no_room_refuted",
    "C44_none_refuted"
   ],
   "note": "Exception found: if n discs of the size do not fit (or no point can lie inside) the sampling never ends; a request for no point raises ValueError."
  },
  {
   "property": "C45",
   "status": "proved",
   "theorems": [
    "C45_exact",
    "C45_total",
    "C45_few_points_refuted",
    "C45_few_points_never_end",
    "C45_missing_neighbour_refuted"
   ],
   "note": "Exception found: with k points or fewer the search never ends (HEALPix grid without holes); next to one of the cells that lack a neighbour (reported as -1) a search that goes on fails with ValueError."
  },
  {
   "property": "C46",
   "status": "proved",
   "theorems": [
    "C46_trial_order",
    "C46_completes",
    "C46_same_takers_same_measures",
    "C46_draws",
    "C46_one_worker",
    "C46_distinct_draws_refuted",
    "C46_same_again_refuted",
    "C46_single_processor_refuted",
    "C46_more_processors"
   ],
   "note": "Exception found: worker processes are forked with the same generator state, so different trials can be the same draw and, with two workers or more, repeated runs can give different measures; on a machine with one processor the pool of 0 workers raises ValueError."
  },
  {
   "property": "C47",
   "status": "proved",
   "theorems": [
    "C47_progress_bounds",
    "C47_no_overlap",
    "C47_counts_all_refuted"
   ],
   "note": "Exception found: the update is a read followed by a write, so updates that overlap are lost: n workers can count 1."
  },
  {
   "property": "C48",
   "status": "proved",
   "theorems": [
    "C48_between_writes",
    "C48_all_finished",
    "C48_inside_write_refuted"
   ],
   "note": "Exception found: each write first empties the file, so a crash inside a write loses everything in it, and the next run fails with TypeError on the empty file; between writes the property holds."
  },
  {
   "property": "C49",
   "status": "proved",
   "theorems": [
    "C49_never_fewer",
    "C49_as_many_as_asked",
    "C49_enough_unchanged",
    "C49_repeat_unchanged",
    "C49_other_measures",
    "C49_missing_only_refuted"
   ],
   "note": "Exception found: a request for more trials discards the stored ones and computes all again, instead of only the missing ones."
  },
  {
   "property": "C50",
   "status": "proved",
   "theorems": [
    "C50_percentile",
    "C50_percentile_grows",
    "C50_extremes"
   ],
   "note": "Proved for all inputs of the model."
  },
  {
   "property": "C51",
   "status": "proved",
   "theorems": [
    "C51_partition",
    "C51_enough_craters",
    "C51_unknown_bin"
   ],
   "note": "Proved for all inputs of the model."
  },
  {
   "property": "C52",
   "status": "proved",
   "theorems": [
    "C52_roundtrip",
    "C52_exact",
    "C52_stable",
    "C52_no_bins_refuted"
   ],
   "note": "Exception found: values are kept to seven significant figures; a measure without any bin is written as a table that cannot be read again (ValueError)."
  },
  {
   "property": "C53",
   "status": "proved",
   "theorems": [
    "C53_spatial_fraction_refuted",
    "C53_any_file_refuted",
    "C53_count_keeps_fractions"
   ],
   "note": "Exception found: Spatialcount looks for the column in the wrong dictionary and gives every crater the fraction 1, whatever the file says; Cratercount reads the fractions."
  },
  {
   "property": "C54",
   "status": "proved",
   "theorems": [
    "C54_outlines",
    "C54_island_refuted",
    "C54_second_exterior_refuted"
   ],
   "note": "Exception found: coordinates are kept to 15 decimals and repeated vertices are made one; an island in a hole is read as a polygon and also as another hole of the polygon around it; the second exterior of a multipart shape is written as internal and lost."
  },
  {
   "property": "C55",
   "status": "proved",
   "theorems": [
    "C55_diam",
    "C55_buffered",
    "C55_scc"
   ],
   "note": "Proved for all inputs of the model."
  },
  {
   "property": "C56",
   "status": "proved",
   "theorems": [
    "C56_area_fraction",
    "C56_segment",
    "C56_inverse"
   ],
   "note": "Proved for all inputs of the model."
  },
  {
   "property": "C57",
   "status": "proved",
   "theorems": [
    "C57_outputs",
    "C57_outputs_refuted"
   ],
   "note": "Exception found: uncertainty plots with two image formats: only the first gets the three diagrams, the second gets an ordinary one under another name; with -ra the name of the table depends on the iteration order of the set of formats."
  },
  {
   "property": "C58",
   "status": "proved",
   "theorems": [
    "C58_transparent",
    "C58_items"
   ],
   "note": "Proved for all inputs of the model."
  },
  {
   "property": "C59",
   "status": "proved",
   "theorems": [
    "C59_linear",
    "C59_defaults",
    "C59_type_and_range_refuted",
    "C59_constant",
    "C59_poly"
   ],
   "note": "Exception found: a type name given together with an output range, or a name other than byte, int16, uint16, raises NameError."
  },
  {
   "property": "C60",
   "status": "proved",
   "theorems": [
    "C60_time_axis"
   ],
   "note": "Proved for all inputs of the model."
  },
  {
   "property": "C61",
   "status": "proved",
   "theorems": [
    "C61_cells_complementary",
    "C61_table_is_written_refuted"
   ],
   "note": "Exception found: with one or more Poisson plots of non-trivial counts the table is never written: the pdf is rebuilt from an array and `if not lam` raises ValueError."
  },
  {
   "property": "C62",
   "status": "proved",
   "theorems": [
    "C62_plain",
    "C62_scientific",
    "C62_exponent",
    "C62_errors"
   ],
   "note": "Proved for all inputs of the model."
  },
  {
   "property": "C63",
   "status": "proved",
   "theorems": [
    "C63_range"
   ],
   "note": "Proved for all inputs of the model."
  },
  {
   "property": "C64",
   "status": "proved",
   "theorems": [
    "C64_low",
    "C64_high",
    "C64_very_high_refuted"
   ],
   "note": "Exception found: for percentiles within 0.0001 of 100 (but not 100) the distance is formatted with an exponent and its length no longer gives the decimals, so too few are printed (99.99995 prints as 100.000)."
  },
  {
   "property": "C65",
   "status": "proved",
   "theorems": [
    "C65_values",
    "C65_numbers_refuted"
   ],
   "note": "Exception found: the numbers 0-31 and 0-14 announced in the help text for colour and psym are read as abbreviations, so colour=3 is red3 and colour=0 an error."
  },
  {
   "property": "C66",
   "status": "proved",
   "theorems": [
    "C66_given_name",
    "C66_default_name",
    "C66_default_order",
    "C66_directory_refuted"
   ],
   "note": "Exception found: if -o names a directory the run ends with NameError."
  },
  {
   "property": "C67",
   "status": "proved",
   "theorems": [
    "C67_area_and_perimeter",
    "C67_large_area_refuted"
   ],
   "note": "Exception found: areas of a million square kilometres or more (and below 0.0001) are written with an exponent that the reader ignores, so that 2.5e6 is read as 2.5."
  },
  {
   "property": "C68",
   "status": "proved",
   "theorems": [
    "C68_minor_ticks_refuted",
    "C68_many_refuted"
   ],
   "note": "Exception found: the number chosen is the smallest of those offered that gives at least max_minor, so max_minor is a lower bound; a request for more than ten per tick interval raises IndexError."
  },
  {
   "property": "C69",
   "status": "proved",
   "theorems": [
    "C69_measures_named",
    "C69_default",
    "C69_empty_refuted"
   ],
   "note": "Exception found: an empty -measure value is not checked and ends in NameError."
  },
  {
   "property": "C70",
   "status": "proved",
   "theorems": [
    "C70_cells",
    "C70_few_trials_refuted"
   ],
   "note": "Exception found: with few trials on a large part of the globe (fewer than 60 times area over globe) the number is below 1, which HEALPix refuses."
  },
  {
   "property": "C71",
   "status": "proved",
   "theorems": [
    "C71_panels",
    "C71_selection"
   ],
   "note": "Proved for all inputs of the model."
  },
  {
   "property": "C72",
   "status": "proved",
   "theorems": [
    "C72_in_limits"
   ],
   "note": "Proved for all inputs of the model."
  },
  {
   "property": "C73",
   "status": "proved",
   "theorems": [
    "C73_strip_fits",
    "C73_offset",
    "C73_forced_refuted"
   ],
   "note": "Exception found: with a y range given by the user the strip may lie outside the plot."
  },
  {
   "property": "C74",
   "status": "proved",
   "theorems": [
    "C74_decade_length",
    "C74_fits",
    "C74_one_dimension",
    "C74_Hartmann_refuted",
    "C74_randomness_refuted"
   ],
   "note": "Exception found: the height asked for a Hartmann plot is ignored; with the randomness setting y decades lose their proportion to x decades."
  },
  {
   "property": "C75",
   "status": "proved",
   "theorems": [
    "C75_natural_ticks"
   ],
   "note": "Proved for all inputs of the model."
  },
  {
   "property": "C76",
   "status": "proved",
   "theorems": [
    "C76_Hartmann_ticks",
    "C76_needs_two_ticks",
    "C76_no_unit_refuted"
   ],
   "note": "Exception found: with no power of two in the range it raises ValueError, with only one IndexError; a range that begins above 1 km has no unit on any label."
  },
  {
   "property": "C77",
   "status": "proved",
   "theorems": [
    "C77_scale"
   ],
   "note": "Proved for all inputs of the model."
  },
  {
   "property": "C78",
   "status": "proved",
   "theorems": [
    "C78_rows"
   ],
   "note": "Proved for all inputs of the model."
  },
  {
   "property": "C79",
   "status": "proved",
   "theorems": [
    "C79_any_fit",
    "C79_cumulative_fit",
    "C79_differential_fit",
    "C79_no_lower_limit",
    "C79_differential_lower_limit_refuted",
    "C79_poisson",
    "C79_unlimited_range",
    "C79_buffered_needs_perimeter"
   ],
   "note": "Exception found: a differential fit whose smallest bin holds a single crater reports nan as lower limit, because the bias-corrected density is less than 0.98 of its error."
  },
  {
   "property": "C80",
   "status": "proved",
   "theorems": [
    "C80_boundaries_from_densities",
    "C80_denser_is_older",
    "C80_ages_given",
    "C80_unknown_name",
    "C80_no_ages",
    "C80_single_definition_in_a_file_refuted"
   ],
   "note": "Exception found: a file with a single definition raises TypeError, although the same text given directly is accepted."
  },
  {
   "property": "C81",
   "status": "proved",
   "theorems": [
    "C81_names_in_the_visible_part",
    "C81_every_shown_epoch_is_named",
    "C81_names_beside_the_chronology",
    "C81_two_spaces_refuted",
    "C81_too_many_names_refuted"
   ],
   "note": "Exception found: a name with two consecutive spaces or hyphens, or more names than ages, raises IndexError."
  },
  {
   "property": "C82",
   "status": "proved",
   "theorems": [
    "C82_formatting_is_decoded",
    "C82_entry_without_digit_refuted",
    "C82_shading",
    "C82_shading_covers",
    "C82_lines",
    "C82_ages_written"
   ],
   "note": "Exception found: an entry that does not begin with a digit raises ValueError."
  },
  {
   "property": "C83",
   "status": "proved",
   "theorems": [
    "C83_isochrons_listed",
    "C83_ages_are_not_negative"
   ],
   "note": "Proved for all inputs of the model."
  },
  {
   "property": "C84",
   "status": "proved",
   "theorems": [
    "C84_columns_at_their_ages",
    "C84_rows_at_their_areas",
    "C84_grid_is_fine_enough",
    "C84_expected_number",
    "C84_cell"
   ],
   "note": "Proved for all inputs of the model."
  },
  {
   "property": "C85",
   "status": "proved",
   "theorems": [
    "C85_covered",
    "C85_covered_without_equilibrium",
    "C85_equilibrium_age",
    "C85_older_than_the_axis_refuted",
    "C85_globe_below_the_axis_refuted"
   ],
   "note": "Exception found: an equilibrium age younger than the axis, or a globe smaller than the smallest area shown, leaves the whole plot uncovered although all of it exceeds the limit."
  },
  {
   "property": "C86",
   "status": "proved",
   "theorems": [
    "C86_colours_of_counts",
    "C86_labels_differ",
    "C86_stretched_colours_refuted",
    "C86_text_metres",
    "C86_text_kilometres_not_closed_refuted"
   ],
   "note": "Exception found: the colours are stretched over the counts that occur in the grid, so that without a count of 8 or more, or without an empty cell, the colours do not match the labels; for a smallest diameter of 1 km or more the text lacks its closing parenthesis."
  },
  {
   "property": "C87",
   "status": "proved",
   "theorems": [
    "C87_user_functions_are_added",
    "C87_builtin_values_first",
    "C87_no_user_functions",
    "C87_setting_takes_effect",
    "C87_plain_names_keep_their_meaning",
    "C87_names_with_parentheses_refuted",
    "C87_unreadable_file_refuted",
    "C87_configuration_of_comments_refuted",
    "C87_needs_final_newline_refuted",
    "C87_configuration_place",
    "C87_no_place_refuted"
   ],
   "note": "Exception found: a built-in name with parentheses, such as 'Moon, Neukum (1983)', selects a user system of the same name without them; a user file that cannot be read ends the program with NameError instead of being ignored; a configuration of comments alone raises IndexError; a built-in file without a final newline would lose the first definition of the user."
  },
  {
   "property": "C88",
   "status": "proved",
   "theorems": [
    "C88_craters",
    "C88_positions",
    "C88_area",
    "C88_radii_must_agree",
    "C88_larger_areas",
    "C88_flat_outline_refuted"
   ],
   "note": "Exception found: a crater outline of no area outside the area ends the reading."
  },
  {
   "property": "C89",
   "status": "proved",
   "theorems": [
    "C89_vertices_inside",
    "C89_both_poles_refuted",
    "C89_edges_refuted",
    "C89_antimeridian_refuted"
   ],
   "note": "Exception found: the limits are those of the vertices: an edge that runs along a great circle leaves the latitudes of its ends; an area across the meridian of 180 degrees has the limits of the rest of the globe; an area around both poles loses the cap around the north pole."
  },
  {
   "property": "C90",
   "status": "proved",
   "theorems": [
    "C90_on_the_sphere",
    "C90_distance"
   ],
   "note": "Proved for all inputs of the model."
  },
  {
   "property": "C91",
   "status": "proved",
   "theorems": [
    "C91_rims",
    "C91_radius",
    "C91_rims_independent"
   ],
   "note": "Proved for all inputs of the model."
  },
  {
   "property": "C92",
   "status": "proved",
   "theorems": [
    "C92_frame",
    "C92_inside"
   ],
   "note": "Proved for all inputs of the model."
  },
  {
   "property": "C93",
   "status": "proved",
   "theorems": [
    "C93_named_after_the_source",
    "C93_source_kept",
    "C93_named_by_the_user",
    "C93_user_name_ignored_refuted",
    "C93_no_such_conversion",
    "C93_directories_changed_refuted",
    "C93_map_repeated",
    "C93_map_repeated_refuted",
    "C93_shapes_found_again",
    "C93_area_file",
    "C93_untagged_shapes_refuted"
   ],
   "note": "Exception found: for statistics and scc files the name given with -o is ignored except for its directory; for some conversions that do not exist (scc to scc, diam to shp or to a map) the program says that they were written; CRATER is removed from the directories of -o for maps too; a map made with -o is written again under another name when its command file is run; a shapefile without CRATER in its name is taken for its own area file."
  },
  {
   "property": "C94",
   "status": "proved",
   "theorems": [
    "C94_complete_run",
    "C94_failed_output",
    "C94_command_file_last",
    "C94_one_request",
    "C94_conversion_only",
    "C94_functions_unreadable_refuted",
    "C94_command_file_before_the_map_refuted",
    "C94_demonstrations_apart"
   ],
   "note": "Exception found: the command file of a map is written before the map; while the user functions named in the configuration cannot be read, every request but the icon ends with that error, even the one that would name another file."
  },
  {
   "property": "C95",
   "status": "proved",
   "theorems": [
    "C95_chronology",
    "C95_chronology_incomplete",
    "C95_unknown_name",
    "C95_production",
    "C95_table",
    "C95_unknown_type_refuted",
    "C95_production_incomplete",
    "C95_plotted_curve",
    "C95_single_definition_in_a_file_refuted"
   ],
   "note": "Exception found: a file with a single definition of the kind raises TypeError, although the same text given directly is accepted; a definition of an unknown type is accepted, but its function fails when it is first used."
  },
  {
   "property": "C96",
   "status": "proved",
   "theorems": [
    "C96_system",
    "C96_densities",
    "C96_unknown_system",
    "C96_unknown_functions",
    "C96_user_definitions",
    "C96_equilibrium",
    "C96_ambiguous_body_refuted"
   ],
   "note": "Exception found: a body written as an abbreviation of several known bodies ends the program instead of being taken as unknown."
  },
  {
   "property": "C97",
   "status": "proved",
   "theorems": [
    "C97_points",
    "C97_sought",
    "C97_shapefile_refuted",
    "C97_unfinished_refuted",
    "C97_bands",
    "C97_grid",
    "C97_legend_possible",
    "C97_narrow_refuted",
    "C97_rows",
    "C97_strips",
    "C97_measures"
   ],
   "note": "Exception found: the results of a shapefile whose name ends in _CRATER are written under the name without it and are not found by the plot; a results file that was opened for writing and left empty makes the count unreadable, whether the strip is wanted or not; results for a single bin, or for two bins that begin at an odd half power of two, stop the plot with an exception, as does any strip without two whole powers of two between 2^-10 and 2^10 km among its edges."
  },
  {
   "property": "C98",
   "status": "proved",
   "theorems": [
    "C98_shading",
    "C98_first_sample_refuted",
    "C98_narrow_refuted",
    "C98_axis",
    "C98_clear_of_text",
    "C98_violin",
    "C98_rows"
   ],
   "note": "Exception found: if the first sample has more probability than lies below the lower age, nothing is shaded (and with more than half, the median is not marked), because the position before the first sample counts from the end; nothing is shaded either if no sample lies between the one-sigma ages."
  },
  {
   "property": "C99",
   "status": "proved",
   "theorems": [
    "C99_shapefiles_written",
    "C99_read_again",
    "C99_several_parts_refuted"
   ],
   "note": "Exception found: an area of several parts cannot be converted: the conversion stops with an AttributeError after writing the file of craters, the file of outlines is left incomplete and without projection, and the pair cannot be read."
  },
  {
   "property": "C100",
   "status": "proved",
   "theorems": [
    "C100_chronology_curves",
    "C100_chronology_1km",
    "C100_title",
    "C100_title_refuted",
    "C100_legend",
    "C100_legend_refuted",
    "C100_summary",
    "C100_summary_refuted"
   ],
   "note": "Exception found: with another reference diameter the legend and the columns of the summary table carry its name, but show the density at 1 km; the title of the axis rounds the reference diameter to whole kilometres (0.5 km becomes 0 km)."
  },
  {
   "property": "C101",
   "status": "proved",
   "theorems": [
    "C101_data",
    "C101_fit",
    "C101_offset",
    "C101_offset_refuted"
   ],
   "note": "Exception found: if the user gives axes of other proportions than the automatic ones, the vertical offset of the age is not in twentieths of a decade of either axis (x from -3 to 2 and y from -4 to 0: 4/5 of that)."
  },
  {
   "property": "C102",
   "status": "proved",
   "theorems": [
    "C102_rows",
    "C102_text"
   ],
   "note": "Proved for all inputs of the model."
  },
  {
   "property": "C103",
   "status": "proved",
   "theorems": [
    "C103_areas",
    "C103_inside",
    "C103_last_boundary_refuted"
   ],
   "note": "Exception found: the isochron of the oldest boundary is never drawn, although the chronology diagram has a strong line at that boundary if its format has a b."
  },
  {
   "property": "C104",
   "status": "proved",
   "theorems": [
    "C104_label",
    "C104_direction",
    "C104_outside_refuted",
    "C104_above_equilibrium_refuted"
   ],
   "note": "Exception found: the label of an isochron that does not enter the diagram is written outside it; an isochron that lies wholly above the equilibrium function stops the plot with an IndexError, even if its label is hidden."
  },
  {
   "property": "C105",
   "status": "proved",
   "theorems": [
    "C105_history",
    "C105_accepted",
    "C105_refused",
    "C105_refused_changes_refuted",
    "C105_new",
    "C105_later_refuted",
    "C105_markers",
    "C105_redraw_refuted"
   ],
   "note": "Exception found: a refused change may already have changed other settings; a background or letter size changed after the plot set was made reaches neither colours nor line widths; and drawing a plot set again scales its markers again, so that on the standard page they shrink to four fifths at every drawing."
  },
  {
   "property": "C106",
   "status": "proved",
   "theorems": [
    "C106_plot",
    "C106_needs_count",
    "C106_later_source_refuted",
    "C106_later_range_refuted"
   ],
   "note": "Exception found: a source given to an existing plot changes neither its count nor its name, and a range given later is not decoded."
  },
  {
   "property": "C107",
   "status": "proved",
   "theorems": [
    "C107_bins",
    "C107_list_refuted"
   ],
   "note": "Exception found: with axis ranges that are a list, as they are unless the plot set was scaled automatically, the option stops the plot with a TypeError."
  },
  {
   "property": "C108",
   "status": "proved",
   "theorems": [
    "C108_title",
    "C108_axes",
    "C108_reference_refuted",
    "C108_functions",
    "C108_no_functions"
   ],
   "note": "Exception found: a reference diameter that is not a whole number is rounded in the title of the axis, half a kilometre to N(>0 km)."
  },
  {
   "property": "C109",
   "status": "proved",
   "theorems": [
    "C109_histogram",
    "C109_no_spread_refuted",
    "C109_ticks"
   ],
   "note": "Exception found: trials that are all the same stop the plot with a ValueError."
  },
  {
   "property": "C110",
   "status": "proved",
   "theorems": [
    "C110_bins",
    "C110_cumulative_refuted",
    "C110_not_accepted",
    "C110_limits"
   ],
   "note": "Exception found: the cumulative numbers of such a table stay in the order from the largest bin to the smallest, so that the smallest bin gets the number of the largest; and a file with this extension is refused when a count is opened."
  },
  {
   "property": "C111",
   "status": "proved",
   "theorems": [
    "C111_chart",
    "C111_reading",
    "C111_possible",
    "C111_narrow_refuted",
    "C111_box"
   ],
   "note": "Exception found: an analysis of a single bin, or of two bins with the only power of two between them, stops the plot with an IndexError; the chart as a panel reaches a tenth of its width out of the panel."
  },
  {
   "property": "C112",
   "status": "proved",
   "theorems": [
    "C112_reduction",
    "C112_boxes",
    "C112_square_refuted",
    "C112_text"
   ],
   "note": "Exception found: an outline that holds the corner wholly, such as a square area, does not count as overlapping: it is not reduced at all and the histogram is drawn on the map."
  },
  {
   "property": "C113",
   "status": "proved",
   "theorems": [
    "C113_in_order",
    "C113_outputs_apart",
    "C113_words",
    "C113_unquoted",
    "C113_demonstrations",
    "C113_quotes_refuted",
    "C113_white_line_refuted"
   ],
   "note": "Exception found: quotes do not keep words together in a file of commands run with source_cmds (a title of two words becomes two arguments with a quote in each), and a line of white space only is run as a command."
  },
  {
   "property": "C114",
   "status": "proved",
   "theorems": [
    "C114_map",
    "C114_age_axis",
    "C114_colour_bar",
    "C114_refused",
    "C114_letters",
    "C114_font_refuted"
   ],
   "note": "Exception found: any font other than the seven in a table, even if it is installed, stops every plot with a KeyError."
  },
  {
   "property": "C115",
   "status": "proved",
   "theorems": [
    "C115_blank",
    "C115_colours",
    "C115_mirrored",
    "C115_labels",
    "C115_labels_in_range",
    "C115_whole_globe",
    "C115_saturation"
   ],
   "note": "Proved for all inputs of the model."
  },
  {
   "property": "C116",
   "status": "proved",
   "theorems": [
    "C116_parts",
    "C116_order",
    "C116_curves",
    "C116_missing"
   ],
   "note": "Proved for all inputs of the model."
  },
  {
   "property": "C117",
   "status": "proved",
   "theorems": [
    "C117_areas",
    "C117_dividers",
    "C117_names",
    "C117_ages",
    "C117_last_curve",
    "C117_one_age_refuted"
   ],
   "note": "Exception found: an epoch system with a single age cannot be drawn on a chronology diagram: it stops with an IndexError."
  },
  {
   "property": "C118",
   "status": "proved",
   "theorems": [
    "C118_order_of_craters",
    "C118_cumulative_fit"
   ],
   "note": "Proved for all inputs of the model."
  },
  {
   "property": "C119",
   "status": "proved",
   "theorems": [
    "C119_places",
    "C119_measure",
    "C119_shared_out",
    "C119_order",
    "C119_radius"
   ],
   "note": "Proved for all inputs of the model."
  },
  {
   "property": "C120",
   "status": "proved",
   "theorems": [
    "C120_outline",
    "C120_no_gaps",
    "C120_every_part",
    "C120_neighbours"
   ],
   "note": "Proved for all inputs of the model."
  },
  {
   "property": "C121",
   "status": "proved",
   "theorems": [
    "C121_trial_m2cnd",
    "C121_trial_sdaa",
    "C121_other_measure",
    "C121_few_points_refuted",
    "C121_serial"
   ],
   "note": "Exception found: with fewer than three points there is no mean second closest distance (the search fails or does not end)."
  },
  {
   "property": "C122",
   "status": "proved",
   "theorems": [
    "C122_units",
    "C122_one_of_them",
    "C122_few_as_far",
    "C122_defined"
   ],
   "note": "Proved for all inputs of the model."
  },
  {
   "property": "C123",
   "status": "proved",
   "theorems": [
    "C123_ages_follow_counts",
    "C123_added_craters",
    "C123_larger_area",
    "C123_probably_older",
    "C123_buffered",
    "C123_usual_counts"
   ],
   "note": "Proved for all inputs of the model."
  },
  {
   "property": "C124",
   "status": "proved",
   "theorems": [
    "C124_poisson_age",
    "C124_added_craters"
   ],
   "note": "Proved for all inputs of the model."
  },
  {
   "property": "C125",
   "status": "proved",
   "theorems": [
    "C125_density_of_an_age",
    "C125_ratio_to_the_median",
    "C125_ratios_are_likelihood_ratios",
    "C125_older_ages_gain"
   ],
   "note": "Proved for all inputs of the model."
  },
  {
   "property": "C126",
   "status": "proved",
   "theorems": [
    "C126_differential_fit"
   ],
   "note": "Proved for all inputs of the model."
  },
  {
   "property": "C127",
   "status": "proved",
   "theorems": [
    "C127_listing",
    "C127_listed_names_are_known",
    "C127_single_definition_refuted",
    "C127_symbols_and_colours",
    "C127_highlights"
   ],
   "note": "Exception found: if there is only one definition of a kind, the list stops after the heading with a TypeError."
  },
  {
   "property": "C128",
   "status": "proved",
   "theorems": [
    "C128_correction",
    "C128_settles",
    "C128_on_an_isochron",
    "C128_age",
    "C128_sparse",
    "C128_converged_refuted",
    "C128_from_files"
   ],
   "note": "Exception found: the iteration stops at an absolute change, so that for sparse counts, where already the first value is below one crater in 10000 km2, it ends after one step, short of the value that would put the points on an isochron; and a fitted isochron of exactly 1 crater of 1 km per km2 is mistaken for none given."
  }
 ]
}