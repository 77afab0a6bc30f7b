{
 "claims": [
  {
   "property": "C01",
   "status": "proved",
   "theorems": [
    "C01_idx_counts_rows",
    "C01_idx_unique"
   ],
   "note": ""
  },
  {
   "property": "C02",
   "status": "proved",
   "theorems": [
    "C02_revisions_count_up",
    "C02_append_is_next_revision",
    "C02_fresh_study_is_revision_0"
   ],
   "note": ""
  },
  {
   "property": "C03",
   "status": "proved",
   "theorems": [
    "C03_append_keeps_rows",
    "C03_append_adds_one_row_per_set",
    "C03_new_columns_are_null"
   ],
   "note": ""
  },
  {
   "property": "C04",
   "status": "proved",
   "theorems": [
    "C04_append_keeps_old_calculations",
    "C04_append_adds_nothing_to_old_calculations"
   ],
   "note": "the directory must not be named like a backup for the part about new files"
  },
  {
   "property": "C05",
   "status": "proved",
   "theorems": [
    "C05_backup_copies_to_smallest_free_name",
    "C05_backup_of_nothing",
    "C05_backup_never_overwrites",
    "C05_backups_survive"
   ],
   "note": ""
  },
  {
   "property": "C06",
   "status": "proved",
   "theorems": [
    "C06_nothing_else_is_touched",
    "C06_database_never_lost",
    "C06_directory_never_lost",
    "C06_backups_made"
   ],
   "note": "names_ok excludes machine directories named like a backup of another one"
  },
  {
   "property": "C07",
   "status": "proved",
   "theorems": [
    "C07_row_values",
    "C07_bookkeeping_not_spoofed",
    "C07_entries_total"
   ],
   "note": ""
  },
  {
   "property": "C08",
   "status": "proved",
   "theorems": [
    "C08_input_files"
   ],
   "note": "the textual meaning of a filled template is 'substituted' of TemplateSpec.v, under the same conditions on the placeholders as C16"
  },
  {
   "property": "C09",
   "status": "proved",
   "theorems": [
    "C09_run_sh",
    "C09_excl_push"
   ],
   "note": ""
  },
  {
   "property": "C10",
   "status": "proved",
   "theorems": [
    "C10_append_to_other_table_raises",
    "C10_empty_table_is_stuck",
    "C10_killed_study_is_stuck_refuted",
    "C10_two_types_refuted"
   ],
   "note": "the failures themselves; witnesses as reachable states"
  },
  {
   "property": "C11",
   "status": "proved",
   "theorems": [
    "C11_add_column_present",
    "C11_add_column_missing",
    "C11_add_column_raises",
    "C11_add_column_idempotent",
    "C11_add_columns"
   ],
   "note": ""
  },
  {
   "property": "C12",
   "status": "proved",
   "theorems": [
    "C12_fill_column",
    "C12_fill_column_keeps_values",
    "C12_fill_column_empty",
    "C12_attach_column"
   ],
   "note": ""
  },
  {
   "property": "C13",
   "status": "proved",
   "theorems": [
    "C13_get_dict_transposes",
    "C13_get_dict_value",
    "C13_get_dict_no_other_key"
   ],
   "note": ""
  },
  {
   "property": "C14",
   "status": "proved",
   "theorems": [
    "C14_sql_column",
    "C14_sql_column_type",
    "C14_sql_column_defined",
    "C14_sql_matrix",
    "C14_sql_matrix_colnames",
    "C14_sql_matrix_long_row",
    "C14_sql_matrix_total"
   ],
   "note": ""
  },
  {
   "property": "C15",
   "status": "proved",
   "theorems": [
    "C15_study_templates_do_not_leak",
    "C15_fresh_lists_do_not_leak",
    "C15_default_templates_leak",
    "C15_default_argument_refuted"
   ],
   "note": "list objects passed explicitly must be the caller's own, i.e. not taken from a calculation made without one"
  },
  {
   "property": "C16",
   "status": "proved",
   "theorems": [
    "C16_template_replace_substitutes",
    "C16_template_replace_order_irrelevant",
    "C16_template_replace_raises",
    "C16_no_placeholder_no_change",
    "C16_file_template_replace",
    "C16_file_template_replace_failure",
    "C16_order_matters_refuted",
    "C16_reinsertion_refuted"
   ],
   "note": "txt mode only; the printed warnings and dct mode (Python % formatting) are not modelled"
  },
  {
   "property": "C17",
   "status": "proved",
   "theorems": [
    "C17_nested_loops_enumerates",
    "C17_nested_loops_flatten",
    "C17_ensure_list_leaves"
   ],
   "note": "entries as lists after _ensure_list"
  },
  {
   "property": "C18",
   "status": "proved",
   "theorems": [
    "C18_unique2d_rows",
    "C18_unique2d_distinct_complete",
    "C18_unique2d_idempotent",
    "C18_unique2d_columns",
    "C18_unique2d_empty"
   ],
   "note": "integer entries; comparing rows of floats without NaN is the same"
  },
  {
   "property": "C19",
   "status": "proved",
   "theorems": [
    "C19_flatten_leaves",
    "C19_flatten_app",
    "C19_flatten_flat",
    "C19_flatten_result_flat"
   ],
   "note": ""
  },
  {
   "property": "C20",
   "status": "proved",
   "theorems": [
    "C20_pop_from_list_removes",
    "C20_pop_from_list_raises",
    "C20_pop_from_list_counts"
   ],
   "note": ""
  },
  {
   "property": "C21",
   "status": "proved",
   "theorems": [
    "C21_str2seq_seq2str",
    "C21_str2seq_seq2str_default",
    "C21_seq2str_str2seq",
    "C21_words",
    "C21_words_exist",
    "C21_multichar_separator_refuted",
    "C21_empty_sequence"
   ],
   "note": "true for one-character and default separators; multi-character case refuted"
  },
  {
   "property": "C22",
   "status": "proved",
   "theorems": [
    "C22_set_all",
    "C22_order_irrelevant",
    "C22_structure",
    "C22_none_is_not_remembered"
   ],
   "note": "general theorem for getters that ask before they look; the getters of Structure and Trajectory, which do not, have their own theorem (shape assertions and unknown symbols not modelled)"
  },
  {
   "property": "C23",
   "status": "proved",
   "theorems": [
    "C23_units_once",
    "C23_later_calls_change_nothing",
    "C23_none_stays_none",
    "C23_update_units",
    "C23_raw_twice_raises"
   ],
   "note": "numbers are abstract with x*1=x; a raising getter ends the sequence"
  },
  {
   "property": "C24",
   "status": "proved",
   "theorems": [
    "C24_parser_units_do_not_leak",
    "C24_cp2k_stress_leaks",
    "C24_cp2k_stress_refuted",
    "C24_calculator_parameters_leak",
    "C24_calculator_refuted"
   ],
   "note": "factors are kept as expressions"
  },
  {
   "property": "C25",
   "status": "proved",
   "theorems": [
    "C25_index",
    "C25_index_outside",
    "C25_slice",
    "C25_slice_twice",
    "C25_reversed",
    "C25_other_lengths_lost"
   ],
   "note": "rows of arrays abstract; timestep multiplication exact (hypothesis in C25_slice_twice only)"
  },
  {
   "property": "C26",
   "status": "proved",
   "theorems": [
    "C26_complete_loop",
    "C26_all_calls",
    "C26_after_break",
    "C26_nested_never_ends"
   ],
   "note": "loop bodies that do not touch the object otherwise; nested loops proved not to terminate"
  },
  {
   "property": "C27",
   "status": "proved",
   "theorems": [
    "C27_concatenate",
    "C27_concatenate_refuted",
    "C27_get_traj"
   ],
   "note": "row shapes not modelled; the claim about unset attributes is proved as the code behaves, with C27_concatenate_refuted for the naive step count"
  },
  {
   "property": "C28",
   "status": "proved",
   "theorems": [
    "C28_mix",
    "C28_refused",
    "C28_ends"
   ],
   "note": "over the real numbers"
  },
  {
   "property": "C29",
   "status": "proved",
   "theorems": [
    "C29_round_trip",
    "C29_chain",
    "C29_position",
    "C29_frac2cart",
    "C29_frac_cart",
    "C29_traj",
    "C29_traj_round_trip"
   ],
   "note": "Over any field and any vector length; np.linalg.inv and solve are taken as exact; integer coordinate arrays are not modelled."
  },
  {
   "property": "C30",
   "status": "proved",
   "theorems": [
    "C30_min_image",
    "C30_unique",
    "C30_idempotent",
    "C30_orthogonal_shortest",
    "C30_shortest_refuted",
    "C30_float_ends_refuted"
   ],
   "note": "Real arithmetic for the positive claims; binary64 non-termination is a refutation computed with SpecFloat."
  },
  {
   "property": "C31",
   "status": "proved",
   "theorems": [
    "C31_wrap",
    "C31_unique",
    "C31_idempotent",
    "C31_float_inside_refuted"
   ],
   "note": "Real arithmetic for the positive claims; the binary64 case is a refutation computed with SpecFloat."
  },
  {
   "property": "C32",
   "status": "proved",
   "theorems": [
    "C32_cell2cc_cc2cell",
    "C32_cc2cell_cell2cc",
    "C32_volume",
    "C32_volume_cell",
    "C32_celldm",
    "C32_celldm_back"
   ],
   "note": "Real arithmetic."
  },
  {
   "property": "C33",
   "status": "proved",
   "theorems": [
    "C33_right_handed",
    "C33_left_handed",
    "C33_dual_refuted"
   ],
   "note": "Real arithmetic. Left-handed cells get all signs flipped, so duality is refuted for them."
  },
  {
   "property": "C34",
   "status": "proved",
   "theorems": [
    "C34_mask",
    "C34_scell",
    "C34_methods",
    "C34_traj",
    "C34_volume"
   ],
   "note": "Real arithmetic; symbols are given."
  },
  {
   "property": "C35",
   "status": "proved",
   "theorems": [
    "C35_voigt",
    "C35_symmetric",
    "C35_tensor",
    "C35_order",
    "C35_voigt3d"
   ],
   "note": "np.empty is an arbitrary array."
  },
  {
   "property": "C36",
   "status": "proved",
   "theorems": [
    "C36_num",
    "C36_cutoff",
    "C36_unsorted",
    "C36_lost"
   ],
   "note": "np.argsort is any sorting permutation."
  },
  {
   "property": "C37",
   "status": "proved",
   "theorems": [
    "C37_take_slice",
    "C37_take_int",
    "C37_take_tuple",
    "C37_take_bad_axis",
    "C37_put_tuple",
    "C37_put_take",
    "C37_put_axis",
    "C37_put_axis_refuted",
    "C37_extend",
    "C37_extend_bad_axis"
   ],
   "note": "numpy indexing modelled from its documentation; views and copies are not distinguished."
  },
  {
   "property": "C38",
   "status": "proved",
   "theorems": [
    "C38_sum",
    "C38_order",
    "C38_keepdims",
    "C38_int",
    "C38_all",
    "C38_negative_refuted",
    "C38_keepdims_negative_refuted",
    "C38_twice_refuted"
   ],
   "note": "Elements of any commutative monoid; floating point addition is not associative and not covered."
  },
  {
   "property": "C39",
   "status": "proved",
   "theorems": [
    "C39_mask",
    "C39_taken"
   ],
   "note": "The comparison is a parameter."
  },
  {
   "property": "C40",
   "status": "proved",
   "theorems": [
    "C40_powers",
    "C40_solver_exists",
    "C40_best_fit",
    "C40_exact",
    "C40_flags_irrelevant",
    "C40_defined",
    "C40_defined_unscaled",
    "C40_constant_refuted",
    "C40_unit_range",
    "C40_derivative",
    "C40_refused"
   ],
   "note": "Least squares is taken as \"a minimiser of the residual norm\", and such a minimiser is proved to exist. Real arithmetic."
  },
  {
   "property": "C41",
   "status": "proved",
   "theorems": [
    "C41_next",
    "C41_negative_refuted",
    "C41_zero"
   ],
   "note": ""
  },
  {
   "property": "C42",
   "status": "proved",
   "theorems": [
    "C42_agree",
    "C42_unknown_method",
    "C42_bound",
    "C42_normalised",
    "C42_zero_signal"
   ],
   "note": "Fourier transforms are exact sums over the complex numbers; every implementation is proved equal to the textbook autocorrelation. A zero signal cannot be normalised."
  },
  {
   "property": "C43",
   "status": "proved",
   "theorems": [
    "C43_python",
    "C43_fortran",
    "C43_returns",
    "C43_deterministic",
    "C43_no_deadlock",
    "C43_bounded",
    "C43_unknown_method"
   ],
   "note": "Threads: every assignment of iterations and every interleaving of reads and writes. Arithmetic is real, except that determinism and termination of the loops are proved for values of any type. An unknown method is refused by the Python version but silently yields zeros in the Fortran one."
  },
  {
   "property": "C44",
   "status": "proved",
   "theorems": [
    "C44_padded",
    "C44_defined",
    "C44_next_power",
    "C44_ambiguous",
    "C44_bad_axis"
   ],
   "note": "Arrays of any dimension over any element type; no axioms."
  },
  {
   "property": "C45",
   "status": "proved",
   "theorems": [
    "C45_peaks",
    "C45_ymin",
    "C45_ymin_sound",
    "C45_ymin_refuted"
   ],
   "note": "Peaks are characterised exactly; the meaning of ymin as a lower bound on peaks is refuted in general and proved where it holds."
  },
  {
   "property": "C46",
   "status": "proved",
   "theorems": [
    "C46_value",
    "C46_defined",
    "C46_within",
    "C46_constant",
    "C46_delta",
    "C46_constant_refuted"
   ],
   "note": "Exact characterisation of every output value; length, range, constants and identity kernels proved. Constants fail for mirrored ends and kernels longer than 2N-1 (C46_constant_refuted). fftconvolve is the exact convolution; one-dimensional data."
  },
  {
   "property": "C47",
   "status": "proved",
   "theorems": [
    "C47_inverse",
    "C47_relations",
    "C47_bad_mode"
   ],
   "note": "All modes are proved mutually inverse; an unknown mode is refused."
  },
  {
   "property": "C48",
   "status": "proved",
   "theorems": [
    "C48_round_trip",
    "C48_flat",
    "C48_single_line_fails",
    "C48_empty",
    "C48_refused",
    "C48_refused_read"
   ],
   "note": "Round trip at the level of text lines, header parsing included; numpy.savetxt/loadtxt and configparser modelled from their documentation; the text of a number is a parameter (readable)."
  },
  {
   "property": "C49",
   "status": "proved",
   "theorems": [
    "C49_round_trip",
    "C49_fortran_header",
    "C49_ref_truncated",
    "C49_read_truncated",
    "C49_fortran_partial_frame",
    "C49_readers_agree",
    "C49_no_frames",
    "C49_short_header",
    "C49_frame_count"
   ],
   "note": "Files are byte lists; np.fromfile, Fortran unformatted records (below 2^31-9 bytes) and a zero-size dtype error are modelled from their documentation. Frame counts in binary64 via Flocq round-to-nearest."
  },
  {
   "property": "C50",
   "status": "proved",
   "theorems": [
    "C50_round_trip",
    "C50_append",
    "C50_append_only",
    "C50_update",
    "C50_bytes_refuted",
    "C50_update_without_slash_refuted"
   ],
   "note": "h5py/HDF5 modelled from their documentation as a tree of groups and datasets."
  },
  {
   "property": "C51",
   "status": "proved",
   "theorems": [
    "C51_distances",
    "C51_cell",
    "C51_cell_attempts",
    "C51_atom_attempts",
    "C51_gives_up",
    "C51_nofail",
    "C51_nearest_image_refuted"
   ],
   "note": "The random stream is any function to [0,1). C51_nearest_image_refuted exhibits a run with the default settings."
  },
  {
   "property": "C52",
   "status": "proved",
   "theorems": [
    "C52_report",
    "C52_tags_independent",
    "C52_raises",
    "C52_pt_twice"
   ],
   "note": "The clock is any sequence of readings."
  },
  {
   "property": "C53",
   "status": "proved",
   "theorems": [
    "C53_length",
    "C53_vertices",
    "C53_linear",
    "C53_path_norm",
    "C53_labels",
    "C53_vlinspace",
    "C53_vlinspace_refused"
   ],
   "note": "Over the reals."
  },
  {
   "property": "C54",
   "status": "proved",
   "theorems": [
    "C54_derivatives",
    "C54_parameters",
    "C54_get_min",
    "C54_call",
    "C54_bulkmod",
    "C54_bulkmod_refuted",
    "C54_guess",
    "C54_guard",
    "C54_guard_refuted",
    "C54_fit_exact",
    "C54_order"
   ],
   "note": "Over the reals; polyfit, leastsq and the spline are arguments."
  },
  {
   "property": "C55",
   "status": "proved",
   "theorems": [
    "C55_energy",
    "C55_trapz_linear",
    "C55_entropy_derivative",
    "C55_heat_capacity_derivative",
    "C55_bounds",
    "C55_dulong_petit",
    "C55_init",
    "C55_dosarea",
    "C55_axis",
    "C55_gibbs",
    "C55_gibbs_evib",
    "C55_gibbs_evib_refuted"
   ],
   "note": "Over the reals, frequencies positive; NaN handling (fixnan) is not modelled."
  },
  {
   "property": "C56",
   "status": "proved",
   "theorems": [
    "C56_cell",
    "C56_needs",
    "C56_unneeded",
    "C56_triclinic",
    "C56_domain"
   ],
   "note": "Real arithmetic; lattice equality as sets of points. An out-of-range cos gamma raises even where it is not needed (hypothesis of the theorems)."
  },
  {
   "property": "C57",
   "status": "proved",
   "theorems": [
    "C57_predict",
    "C57_gradient",
    "C57_gradient_rows",
    "C57_deriv_of_predict",
    "C57_interpolates",
    "C57_regularised",
    "C57_least_squares",
    "C57_mean_p",
    "C57_fit_error",
    "C57_zero_values_refuted"
   ],
   "note": "The solvers are parameters with the documented contract; the symmetric solver is only assumed correct on symmetric matrices. The literal claim is refuted for all-zero training values (C57_zero_values_refuted)."
  },
  {
   "property": "C58",
   "status": "proved",
   "theorems": [
    "C58_cell",
    "C58_orthogonal_refuted",
    "C58_natoms",
    "C58_atoms",
    "C58_thermo",
    "C58_stress",
    "C58_cryst_const"
   ],
   "note": "Full pipeline: grep/sed/egrep on the lines, number parsing, reshape, columns by name. Orthogonal boxes refuted for every such dump. Words are assumed free of blanks and of the marks ITEM, --, TOMS, Step, Loop, as the format guarantees."
  },
  {
   "property": "C59",
   "status": "proved",
   "theorems": [
    "C59_makedb_appends"
   ],
   "note": ""
  },
  {
   "property": "C60",
   "status": "proved",
   "theorems": [
    "C60_first_get_converts",
    "C60_second_get_does_not",
    "C60_get_twice_refuted"
   ],
   "note": ""
  },
  {
   "property": "C61",
   "status": "proved",
   "theorems": [
    "C61_entry",
    "C61_diagonal",
    "C61_images_irrelevant",
    "C61_symmetric_orthogonal",
    "C61_symmetric_generic",
    "C61_symmetric_refuted"
   ],
   "note": "Real arithmetic."
  },
  {
   "property": "C62",
   "status": "proved",
   "theorems": [
    "C62_points",
    "C62_ends",
    "C62_refused"
   ],
   "note": "Real arithmetic."
  },
  {
   "property": "C63",
   "status": "proved",
   "theorems": [
    "C63_area",
    "C63_scale_irrelevant",
    "C63_trapz"
   ],
   "note": "Real arithmetic; the integration rule is any homogeneous function."
  },
  {
   "property": "C64",
   "status": "proved",
   "theorems": [
    "C64_rotation",
    "C64_raises",
    "C64_degrees",
    "C64_about_z",
    "C64_about_x"
   ],
   "note": "Real arithmetic."
  },
  {
   "property": "C65",
   "status": "proved",
   "theorems": [
    "C65_values",
    "C65_streams",
    "C65_repeat",
    "C65_low_order_refuted",
    "C65_permutation_refuted"
   ],
   "note": "Real arithmetic; the quadratic extrapolation through three points is exact."
  },
  {
   "property": "C66",
   "status": "proved",
   "theorems": [
    "C66_grid",
    "C66_unordered_refuted"
   ],
   "note": "Axis values are integers, standing for any ordered numbers."
  },
  {
   "property": "C67",
   "status": "proved",
   "theorems": [
    "C67_dft",
    "C67_mirror",
    "C67_welch",
    "C67_odd"
   ],
   "note": "Real and complex arithmetic are exact."
  },
  {
   "property": "C68",
   "status": "proved",
   "theorems": [
    "C68_same",
    "C68_window",
    "C68_spectrum",
    "C68_nonneg"
   ],
   "note": "Real arithmetic, exact Fourier sums, any integration rule that is homogeneous. full_out is not modelled."
  },
  {
   "property": "C69",
   "status": "proved",
   "theorems": [
    "C69_units",
    "C69_converts",
    "C69_cp2k_stress",
    "C69_history_refuted",
    "C69_unknown"
   ],
   "note": "Proved for every class and quantity; the exact exception is C69_cp2k_stress, the unrestricted claim is refuted (C69_history_refuted). C24 proves the history-independence part on a model with symbolic factors; here the factors are computed and compared with unit sizes."
  },
  {
   "property": "C70",
   "status": "proved",
   "theorems": [
    "C70_smith",
    "C70_smith_width",
    "C70_smith_maximal",
    "C70_neighbours",
    "C70_number_integral",
    "C70_density",
    "C70_symmetric",
    "C70_defined",
    "C70_defaults",
    "C70_mask_reuse_refuted"
   ],
   "note": "Over the reals; the dmask string is an arbitrary predicate; np.histogram from its documentation."
  },
  {
   "property": "C71",
   "status": "proved",
   "theorems": [
    "C71_distances",
    "C71_trajectory",
    "C71_runs",
    "C71_private_needed",
    "C71_distsq",
    "C71_distsq_refused",
    "C71_distsq_runs",
    "C71_metric"
   ],
   "note": ""
  },
  {
   "property": "C72",
   "status": "proved",
   "theorems": [
    "C72_cosine",
    "C72_degrees",
    "C72_degrees_nan",
    "C72_selection",
    "C72_count",
    "C72_filled",
    "C72_refused",
    "C72_symmetric",
    "C72_triangle",
    "C72_mask_refuted"
   ],
   "note": ""
  },
  {
   "property": "C73",
   "status": "proved",
   "theorems": [
    "C73_velocity",
    "C73_velocity_inner",
    "C73_velocity_exact",
    "C73_velocity_refused",
    "C73_velocity_int_refuted",
    "C73_rmsd",
    "C73_rmsd_reference",
    "C73_rmsd_metric",
    "C73_rmsd_rigid",
    "C73_mean",
    "C73_mean_defined",
    "C73_mean_consistent",
    "C73_mean_variable_cell_refuted"
   ],
   "note": "Two claims are false as a user would expect them and are proved so: C73_velocity_int_refuted, C73_mean_variable_cell_refuted."
  },
  {
   "property": "C74",
   "status": "proved",
   "theorems": [
    "C74_axes",
    "C74_align",
    "C74_align_defined",
    "C74_align_orthonormal",
    "C74_align_points",
    "C74_check",
    "C74_distortion",
    "C74_unchecked_refuted",
    "C74_mirror_refuted",
    "C74_align_twice",
    "C74_center",
    "C74_center_refused",
    "C74_center_failed_inplace",
    "C74_center_velocity_refuted"
   ],
   "note": "Four claims are false as a user would expect them and are proved so: C74_unchecked_refuted, C74_mirror_refuted, C74_center_failed_inplace, C74_center_velocity_refuted."
  },
  {
   "property": "C75",
   "status": "proved",
   "theorems": [
    "C75_size",
    "C75_spacing",
    "C75_refused",
    "C75_even",
    "C75_even_refuted",
    "C75_monotone",
    "C75_round_trip",
    "C75_kgrid"
   ],
   "note": "even=True with default minpoints is refuted: C75_even_refuted."
  },
  {
   "property": "C76",
   "status": "proved",
   "theorems": [
    "C76_values",
    "C76_methods",
    "C76_defined",
    "C76_consistent",
    "C76_time_refuted",
    "C76_int_refuted",
    "C76_variable_cell_refuted"
   ],
   "note": ""
  },
  {
   "property": "C77",
   "status": "proved",
   "theorems": [
    "C77_symbols",
    "C77_coords",
    "C77_cryst",
    "C77_no_cryst_refuted",
    "C77_no_atoms_refuted",
    "C77_long_cell_refuted",
    "C77_prime_refuted",
    "C77_integer_refuted",
    "C77_touching_refuted"
   ],
   "note": ""
  },
  {
   "property": "C78",
   "status": "proved",
   "theorems": [
    "C78_cryst",
    "C78_coords",
    "C78_no_coords",
    "C78_symbols",
    "C78_round_trip",
    "C78_digits_refuted",
    "C78_unlooped_refuted"
   ],
   "note": ""
  },
  {
   "property": "C79",
   "status": "proved",
   "theorems": [
    "C79_round_trip",
    "C79_nearest",
    "C79_readable",
    "C79_cif",
    "C79_fewer_refuted"
   ],
   "note": ""
  },
  {
   "property": "C80",
   "status": "proved",
   "theorems": [
    "C80_eps",
    "C80_str_arr",
    "C80_vector",
    "C80_atpos",
    "C80_fast",
    "C80_xyz",
    "C80_axsf",
    "C80_mismatch",
    "C80_exact",
    "C80_name_refuted",
    "C80_symbol_refuted",
    "C80_small_refuted",
    "C80_rank_refuted"
   ],
   "note": ""
  },
  {
   "property": "C81",
   "status": "proved",
   "theorems": [
    "C81_unique",
    "C81_same",
    "C81_order",
    "C81_typat",
    "C81_nspecies",
    "C81_znucl",
    "C81_mass",
    "C81_unknown",
    "C81_mass_unique",
    "C81_systematic",
    "C81_systematic_refuted",
    "C81_positive",
    "C81_dummy_refuted",
    "C81_periods",
    "C81_weights"
   ],
   "note": ""
  },
  {
   "property": "C82",
   "status": "proved",
   "theorems": [
    "C82_file",
    "C82_raises",
    "C82_symbols",
    "C82_geometry",
    "C82_distances",
    "C82_mirror_refuted"
   ],
   "note": ""
  },
  {
   "property": "C83",
   "status": "proved",
   "theorems": [
    "C83_rows",
    "C83_complete",
    "C83_truncated_refuted",
    "C83_excess",
    "C83_leftover",
    "C83_unreadable"
   ],
   "note": ""
  },
  {
   "property": "C84",
   "status": "proved",
   "theorems": [
    "C84_pseudos",
    "C84_pseudos_sorted",
    "C84_pseudos_refuted",
    "C84_pseudos_missing",
    "C84_pseudos_one",
    "C84_kpoints",
    "C84_kpoints_tuple_refuted",
    "C84_kpoints_array_refuted",
    "C84_full",
    "C84_gamma_shift_refuted",
    "C84_nk",
    "C84_file",
    "C84_smearing_refuted",
    "C84_ecutrho",
    "C84_raises"
   ],
   "note": ""
  },
  {
   "property": "C85",
   "status": "proved",
   "theorems": [
    "C85_coords",
    "C85_no_unit_refuted",
    "C85_cell",
    "C85_cell_alat",
    "C85_cell_plain_alat",
    "C85_without_alat",
    "C85_run",
    "C85_stopped_refuted",
    "C85_matched",
    "C85_no_forces_refuted",
    "C85_cut",
    "C85_mixed_units_refuted"
   ],
   "note": ""
  },
  {
   "property": "C86",
   "status": "proved",
   "theorems": [
    "C86_trajectory",
    "C86_cut",
    "C86_energies",
    "C86_matrices",
    "C86_one_step_refuted",
    "C86_outfile_forces",
    "C86_force_file",
    "C86_missing",
    "C86_opt_energies",
    "C86_cell_opt",
    "C86_geo_opt",
    "C86_scf",
    "C86_scf_energy",
    "C86_two_energies_refuted",
    "C86_scf_stress"
   ],
   "note": ""
  },
  {
   "property": "C87",
   "status": "proved",
   "theorems": [
    "C87_natoms",
    "C87_scale",
    "C87_scf_stress",
    "C87_scf_etot",
    "C87_scf_gradients",
    "C87_force_sign_refuted",
    "C87_converged",
    "C87_energies",
    "C87_ekin_refuted",
    "C87_econst_refuted",
    "C87_one_step_refuted",
    "C87_columns",
    "C87_trajectory",
    "C87_forces",
    "C87_cut",
    "C87_single_refuted",
    "C87_cell",
    "C87_stress",
    "C87_gap_refuted",
    "C87_missing"
   ],
   "note": ""
  },
  {
   "property": "C88",
   "status": "proved",
   "theorems": [
    "C88_modes",
    "C88_wrong_natoms",
    "C88_wrong_q",
    "C88_dyn",
    "C88_lost_frequency_refuted",
    "C88_all_dyn",
    "C88_agree",
    "C88_missing",
    "C88_one_frequency_refuted",
    "C88_dynmat",
    "C88_ir_raman"
   ],
   "note": ""
  },
  {
   "property": "C89",
   "status": "proved",
   "theorems": [
    "C89_G",
    "C89_H",
    "C89_pressure",
    "C89_monotone",
    "C89_two_axes",
    "C89_inputs",
    "C89_F",
    "C89_alpha",
    "C89_Cp",
    "C89_given",
    "C89_full",
    "C89_history",
    "C89_refuses",
    "C89_stale_axis_refuted"
   ],
   "note": ""
  },
  {
   "property": "C90",
   "status": "proved",
   "theorems": [
    "C90_min",
    "C90_max",
    "C90_stationary",
    "C90_maximum_refuted",
    "C90_root",
    "C90_inverse",
    "C90_outside",
    "C90_lookup_refuted",
    "C90_mono",
    "C90_spline",
    "C90_findmin",
    "C90_findroot",
    "C90_between_refuted",
    "C90_plateau_refuted"
   ],
   "note": ""
  },
  {
   "property": "C91",
   "status": "proved",
   "theorems": [
    "C91_same",
    "C91_early",
    "C91_rotation",
    "C91_image_refuted",
    "C91_not_symmetric_refuted",
    "C91_mirror_refuted",
    "C91_spacegroup",
    "C91_roundtrip",
    "C91_reflexive",
    "C91_already_primitive",
    "C91_primitive",
    "C91_primitive_fails",
    "C91_irreducible_refuted"
   ],
   "note": ""
  },
  {
   "property": "C92",
   "status": "proved",
   "theorems": [
    "C92_table",
    "C92_raises",
    "C92_lines",
    "C92_shift",
    "C92_telescope",
    "C92_last",
    "C92_absolute",
    "C92_hidden_refuted"
   ],
   "note": ""
  },
  {
   "property": "C93",
   "status": "proved",
   "theorems": [
    "C93_1d",
    "C93_derivative",
    "C93_one_refuted",
    "C93_column_refuted",
    "C93_nd",
    "C93_refused",
    "C93_min",
    "C93_min_from",
    "C93_nd_min_refuted"
   ],
   "note": ""
  },
  {
   "property": "C94",
   "status": "proved",
   "theorems": [
    "C94_first",
    "C94_minimum",
    "C94_once",
    "C94_refit_refuted",
    "C94_curves_refuted",
    "C94_array_refuted",
    "C94_behave",
    "C94_accepted",
    "C94_unsorted_refuted",
    "C94_elk",
    "C94_elk_points",
    "C94_path_refuted"
   ],
   "note": ""
  },
  {
   "property": "C95",
   "status": "proved",
   "theorems": [
    "C95_copy",
    "C95_independent",
    "C95_get_traj",
    "C95_wrap_copy",
    "C95_compress_copy",
    "C95_compress",
    "C95_units",
    "C95_units_lost_refuted",
    "C95_input",
    "C95_frame_refuted",
    "C95_symbols_refuted",
    "C95_wrap_frame_refuted",
    "C95_timestep_refuted",
    "C95_once",
    "C95_frame",
    "C95_slice",
    "C95_wrap"
   ],
   "note": ""
  },
  {
   "property": "C96",
   "status": "proved",
   "theorems": [
    "C96_axis",
    "C96_fft",
    "C96_negative_refuted",
    "C96_negative_differs_refuted",
    "C96_large",
    "C96_ezfft",
    "C96_ezfft_refuted",
    "C96_lorentz",
    "C96_lorentz_shape",
    "C96_scale",
    "C96_scale_refuted",
    "C96_bandstop_refuted",
    "C96_fir",
    "C96_filter"
   ],
   "note": ""
  },
  {
   "property": "C97",
   "status": "proved",
   "theorems": [
    "C97_structure",
    "C97_cell",
    "C97_cell_md",
    "C97_broken",
    "C97_missing_refuted",
    "C97_natoms_refuted",
    "C97_nkpoints",
    "C97_timestep",
    "C97_cycles",
    "C97_converged_refuted",
    "C97_ekin",
    "C97_temperature",
    "C97_steps",
    "C97_start_refuted",
    "C97_vcmd",
    "C97_vcmd_refuted"
   ],
   "note": ""
  },
  {
   "property": "C98",
   "status": "proved",
   "theorems": [
    "C98_debye_error",
    "C98_debye_converges",
    "C98_one_point_refuted",
    "C98_functions",
    "C98_pointwise",
    "C98_einstein",
    "C98_debye",
    "C98_slope",
    "C98_coefficient_refuted",
    "C98_zero"
   ],
   "note": ""
  },
  {
   "property": "C99",
   "status": "proved",
   "theorems": [
    "C99_exe",
    "C99_stress",
    "C99_pwscf",
    "C99_lammps",
    "C99_lammps_axes",
    "C99_frame_refuted",
    "C99_label_refuted",
    "C99_others"
   ],
   "note": ""
  },
  {
   "property": "C100",
   "status": "proved",
   "theorems": [
    "C100_axes",
    "C100_same",
    "C100_index",
    "C100_update_refuted",
    "C100_update",
    "C100_update_all",
    "C100_shape_refuted",
    "C100_order_refuted",
    "C100_repeat_refuted"
   ],
   "note": ""
  },
  {
   "property": "C101",
   "status": "proved",
   "theorems": [
    "C101_by_name",
    "C101_leak_refuted",
    "C101_by_object",
    "C101_reads_only",
    "C101_write",
    "C101_round_trip",
    "C101_gz_refuted",
    "C101_twice_refuted",
    "C101_overwrite_refuted"
   ],
   "note": ""
  },
  {
   "property": "C102",
   "status": "proved",
   "theorems": [
    "C102_once",
    "C102_first",
    "C102_assign",
    "C102_refit",
    "C102_failed_fit",
    "C102_stale_refuted",
    "C102_refit_refuted"
   ],
   "note": ""
  },
  {
   "property": "C103",
   "status": "proved",
   "theorems": [
    "C103_lammps",
    "C103_orthogonal_refuted",
    "C103_cp2k",
    "C103_unaligned_refuted",
    "C103_missing"
   ],
   "note": ""
  },
  {
   "property": "C104",
   "status": "proved",
   "theorems": [
    "C104_defaults",
    "C104_params",
    "C104_held_out",
    "C104_cv",
    "C104_direct",
    "C104_fit_opt",
    "C104_not_worse",
    "C104_dict",
    "C104_twice_refuted"
   ],
   "note": ""
  },
  {
   "property": "C105",
   "status": "proved",
   "theorems": [
    "C105_cutoff",
    "C105_num",
    "C105_distances",
    "C105_again",
    "C105_negative_refuted",
    "C105_fails"
   ],
   "note": ""
  },
  {
   "property": "C106",
   "status": "proved",
   "theorems": [
    "C106_frames",
    "C106_lengths",
    "C106_time",
    "C106_one_cell",
    "C106_succeeds",
    "C106_mismatch",
    "C106_mismatch_refuted",
    "C106_no_positions",
    "C106_pressure_rotated",
    "C106_pressure_hydrostatic",
    "C106_solved"
   ],
   "note": ""
  },
  {
   "property": "C107",
   "status": "proved",
   "theorems": [
    "C107_fill",
    "C107_attach",
    "C107_add",
    "C107_create",
    "C107_insert",
    "C107_default",
    "C107_other_tables",
    "C107_killed",
    "C107_lost",
    "C107_commit",
    "C107_ddl_stored",
    "C107_attach_refuted",
    "C107_attach_open",
    "C107_failed_refuted",
    "C107_finished",
    "C107_rows"
   ],
   "note": ""
  },
  {
   "property": "C108",
   "status": "proved",
   "theorems": [
    "C108_returns",
    "C108_reads",
    "C108_different",
    "C108_lengths",
    "C108_short_refuted",
    "C108_slash",
    "C108_slash_refuted",
    "C108_file"
   ],
   "note": ""
  },
  {
   "property": "C109",
   "status": "proved",
   "theorems": [
    "C109_line",
    "C109_inner",
    "C109_between",
    "C109_ties_refuted",
    "C109_hull"
   ],
   "note": ""
  }
 ]
}