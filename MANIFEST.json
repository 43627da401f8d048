{
 "claims": [
  {
   "property": "C01",
   "status": "proved",
   "theorems": [
    "C01_object_positions",
    "C01_positions_follow_dynaphopy_order",
    "C01_order_is_bijective"
   ],
   "note": "Order and bijection for every structure and every 3-d supercell with positive factors."
  },
  {
   "property": "C02",
   "status": "proved",
   "theorems": [
    "C02_attributes_align_with_positions",
    "C02_attribute_index",
    "C02_short_attribute_list_is_an_error"
   ],
   "note": "Stated for an arbitrary attribute type, covering masses, charges, atomic numbers, elements and type index expansion; too short attribute lists raise."
  },
  {
   "property": "C03",
   "status": "partial",
   "theorems": [
    "C03_supercell_rows_refuted",
    "C03_supercell_rows_partial",
    "C03_scaled_positions_partial"
   ],
   "note": "Refuted: get_cell(supercell) scales columns, not rows. The partial theorem characterises exactly the cells and supercells for which it is right."
  },
  {
   "property": "C04",
   "status": "partial",
   "theorems": [
    "C04_set_positions_refuted",
    "C04_set_positions_partial",
    "C04_scaled_positions_updated"
   ],
   "note": "Refuted: once cartesian positions are cached set_positions is invisible to get_positions(). Partial: visible when only scaled positions were supplied and no cartesian query happened; scaled positions always updated."
  },
  {
   "property": "C05",
   "status": "partial",
   "theorems": [
    "C05_atom_types_partial",
    "C05_crystal_types_partial",
    "C05_first_query_refuted"
   ],
   "note": "Proved for a first query without supercell (numbering, mass separation, exact classes for crystals). Independence of the first query is refuted."
  },
  {
   "property": "C06",
   "status": "proved",
   "theorems": [
    "C06_primitive_matrix_resets"
   ],
   "note": "For every history before the call and every sequence of plain queries after it (queries for a supercell of the atom types are C05's refuted case)."
  },
  {
   "property": "C07",
   "status": "partial",
   "theorems": [
    "C07_crop_keeps_last_steps_partial",
    "C07_crop_nothing",
    "C07_crop_twice_partial",
    "C07_crop_succeeds_partial",
    "C07_crop_memmap_refuted",
    "C07_last_steps_meaning",
    "C07_derived_velocity_refuted",
    "C07_every_accelerated_motion_refuted"
   ],
   "note": "Last-n property proved for every history when cropping returns, for loaded or already computed velocity. Refuted: memory-mapped objects always fail; for derived velocity crop and first access do not commute."
  },
  {
   "property": "C08",
   "status": "partial",
   "theorems": [
    "C08_velocity_mass_average",
    "C08_without_crop_partial",
    "C08_flag_refuted",
    "C08_crop_matrix_refuted",
    "C08_crop_time_step_refuted"
   ],
   "note": "Velocity mass average proved for all histories. Mean displacement matrix and time step refuted after crop / other flag; proved for histories without crop and with a single flag."
  },
  {
   "property": "C09",
   "status": "proved",
   "theorems": [
    "C09_average_time_step",
    "C09_uniform",
    "C09_too_short"
   ],
   "note": "Within the 8-decimal rounding for every axis; exact for uniform steps of at most 8 decimals."
  },
  {
   "property": "C10",
   "status": "proved",
   "theorems": [
    "C10_minimum_image",
    "C10_all_steps"
   ],
   "note": "Every dimension n >= 2, every cell with non-zero determinant, every point; on the C code's own determinant/cofactor routines."
  },
  {
   "property": "C11",
   "status": "proved",
   "theorems": [
    "C11_jumps_invisible",
    "C11_coefficients_unique"
   ],
   "note": "Invariance under every integer lattice combination away from exact ties, every dimension n >= 2."
  },
  {
   "property": "C12",
   "status": "proved",
   "theorems": [
    "C12_cofactor_inverse",
    "C12_determinant",
    "C12_determinant_sarrus",
    "C12_inverse_3x3",
    "C12_dimension_one_refuted"
   ],
   "note": "Both products are the identity for every n >= 2, and the determinant routine equals mathcomp's determinant; in dimension 1 the routine returns 0 (remark)."
  },
  {
   "property": "C13",
   "status": "partial",
   "theorems": [
    "C13_python_c_agree_partial",
    "C13_python_c_disagree_refuted"
   ],
   "note": "Python and C versions agree for symmetric cells; refuted for every non-symmetric cell."
  },
  {
   "property": "C14",
   "status": "partial",
   "theorems": [
    "C14_refused_once_refuted",
    "C14_supercell_matrix_nearest_partial",
    "C14_supercell_matrix_tolerance_partial",
    "C14_supercell_matrix_refuted",
    "C14_zero_factor_refuted",
    "C14_directions_ignored_refuted",
    "C14_offsetting_errors_refuted"
   ],
   "note": "Refuted: deviations are summed with sign so they cancel, and factor 0 can be returned. Partial: nearest integers always; tolerance when deviations have one sign. Also refuted for every mismatched pair: the refused factors are remembered and returned by the next call (C14_refused_once_refuted)."
  },
  {
   "property": "C15",
   "status": "partial",
   "theorems": [
    "C15_unit_average_value",
    "C15_average_positions_partial",
    "C15_average_positions_refuted"
   ],
   "note": "Refuted for types occurring more than once per unit cell (value is k times the mean); proved for one atom of a type per cell, including the folding."
  },
  {
   "property": "C16",
   "status": "proved",
   "theorems": [
    "C16_average",
    "C16_covariance",
    "C16_symmetric_psd"
   ],
   "note": "Average, covariance, symmetry and positive semidefiniteness for all inputs."
  },
  {
   "property": "C17",
   "status": "partial",
   "theorems": [
    "C17_every_signal_refuted",
    "C17_documented_formula_refuted",
    "C17_returned_value_partial",
    "C17_trapezoid_value_partial",
    "C17_documented_trapezoid_refuted",
    "C17_returned_array_partial",
    "C17_zero_frequency_partial"
   ],
   "note": "documented cosine transform refuted for both integration rules (unbounded in the frequency); the exact value returned by both rules and by the whole array is proved."
  },
  {
   "property": "C18",
   "status": "proved",
   "theorems": [
    "C18_in_bounds_and_terminates",
    "C18_zero_increment",
    "C18_negative_increment",
    "C18_schedule_independent"
   ],
   "note": "In bounds, terminating and schedule independent for every increment >= 1; increments <= 0 characterised as non-terminating / out of bounds."
  },
  {
   "property": "C19",
   "status": "partial",
   "theorems": [
    "C19_out_of_bounds_refuted",
    "C19_in_bounds_partial",
    "C19_first_sample_ignored_partial"
   ],
   "note": "Refuted for every input: the 1-based loops read one element past the samples. With one more readable element everything is in bounds and equals Burg's recursion on elements 1..N."
  },
  {
   "property": "C20",
   "status": "proved",
   "theorems": [
    "C20_residual_power_of_the_code",
    "C20_reflection_coefficients",
    "C20_spectrum_always_defined",
    "C20_spectrum_nonnegative",
    "C20_spectrum_formula",
    "C20_schedule_independent"
   ],
   "note": "For every memory content read by the routine, every N >= 2 and every order, directly on the array code; the spectrum's denominator is never zero when evaluated."
  },
  {
   "property": "C21",
   "status": "partial",
   "theorems": [
    "C21_binary64_partial",
    "C21_exact_arithmetic_partial",
    "C21_coarse_resolution",
    "C21_last_sample_lost_refuted",
    "C21_unequal_pieces_refuted"
   ],
   "note": "Proved for every length, resolution and step in exact arithmetic (and the raising case characterised). In the binary64 arithmetic Python runs the full statement is false: refuted by kernel-evaluated IEEE runs (last sample lost; unequal pieces). C21_binary64_partial proves, in binary64 and for every length up to 2^24 and every finite resolution and step, that nothing worse happens: pieces in range, not empty, no gap, exact number of pieces, lengths off by at most one, at most the last sample lost."
  },
  {
   "property": "C22",
   "status": "partial",
   "theorems": [
    "C22_binary64_limits_partial",
    "C22_binary64_resolution_partial",
    "C22_frequency_limits_exact_partial",
    "C22_resolution_exact_partial",
    "C22_overshoot_refuted",
    "C22_resolution_creeps_refuted"
   ],
   "note": "Proved for every limits/resolution in exact arithmetic. False in binary64: overshoot by a full step and non-idempotent set_spectra_resolution, both refuted by kernel-evaluated IEEE runs. C22_binary64_limits_partial and C22_binary64_resolution_partial prove, in binary64 for all axes up to about 2^20 points, that the lower end is exact, every entry within r/1024 of its place, the upper end reached and exceeded by at most one step up to r/512, and that repeating set_frequency_limits changes nothing."
  },
  {
   "property": "C23",
   "status": "partial",
   "theorems": [
    "C23_history_partial",
    "C23_partials_frozen_refuted",
    "C23_projection_ignored_refuted",
    "C23_crop_ignored_refuted",
    "C23_crop_first_partial",
    "C23_coordinate_ignored_refuted"
   ],
   "note": "Holds for every history of every length over all setters/getters except that the following are refuted (universally): element-resolved spectra frozen for ever; atom projection, trajectory crop and full-spectrum coordinate ignored once cached. Kernels (phonopy, projection, spectra) are arbitrary functions that fill the cache only on success (failures half way: C117)."
  },
  {
   "property": "C24",
   "status": "partial",
   "theorems": [
    "C24_history_partial",
    "C24_rows_partial",
    "C24_changes_ignored_refuted",
    "C24_user_range_lost_refuted"
   ],
   "note": "Holds for every ordinary history; refuted: projection/crop/QHA changes after the data exists are ignored, and the user's frequency range is overwritten."
  },
  {
   "property": "C25",
   "status": "proved",
   "theorems": [
    "C25_wave_vector_restored"
   ],
   "note": "Every state and kernel. If the inner calculation exits, the selected wave vector is not restored (example)."
  },
  {
   "property": "C26",
   "status": "partial",
   "theorems": [
    "C26_shared_settings_refuted",
    "C26_inconsistent_refuted",
    "C26_own_data_partial",
    "C26_getters_independent_partial"
   ],
   "note": "The property is false (settings are a singleton): refuted for every q and pair of objects. Proved remainder: own data is never touched, non-setter calls are unobservable."
  },
  {
   "property": "C27",
   "status": "partial",
   "theorems": [
    "C27_set_get_partial",
    "C27_frame",
    "C27_history_partial",
    "C27_save_flag_refuted",
    "C27_defaults",
    "C27_load",
    "C27_degenerate_no_effect",
    "C27_second_instance_ignores_arguments"
   ],
   "note": "Proved for every history of setter calls and every parameter except save_renormalized_frequencies, whose setter is refuted; frame, defaults and loading also proved; the singleton ignoring later constructor arguments is shown."
  },
  {
   "property": "C28",
   "status": "proved",
   "theorems": [
    "C28_value",
    "C28_linear",
    "C28_single_type",
    "C28_bad_type_raises"
   ],
   "note": "Every trajectory, eigenvector set and wave vector; exact real/complex arithmetic."
  },
  {
   "property": "C29",
   "status": "proved",
   "theorems": [
    "C29_energy_conserved",
    "C29_implementations_agree"
   ],
   "note": "Every orthonormal eigenvector set (C code and numpy version); exact arithmetic."
  },
  {
   "property": "C30",
   "status": "partial",
   "theorems": [
    "C30_cover_and_linked_partial",
    "C30_ascending_partial",
    "C30_partition_refuted",
    "C30_degenerate_mean"
   ],
   "note": "Cover and linkage proved for every input; exact partition and separation proved for ascending frequencies; the unrestricted claim is refuted for every positive cutoff."
  },
  {
   "property": "C31",
   "status": "proved",
   "theorems": [
    "C31_one_entry_per_branch",
    "C31_failures_are_local"
   ],
   "note": "Every number of branches, pattern of failed fits and shift list long enough for the branches; the fit itself is an arbitrary function."
  },
  {
   "property": "C32",
   "status": "partial",
   "theorems": [
    "C32_lorentzian_partial",
    "C32_dip_refuted",
    "C32_sign_convention_refuted",
    "C32_accepted"
   ],
   "note": "Proved for every coefficient vector describing a peak (c/b>0) and any error estimate, with the area as an improper integral; which fits are accepted is characterised exactly; refuted for every dip (b<0<c) and for the sign-flipped coefficients of the same curve."
  },
  {
   "property": "C33",
   "status": "partial",
   "theorems": [
    "C33_zero_asymmetry",
    "C33_zero_asymmetry_report",
    "C33_asymmetric_partial",
    "C33_asymmetric_width_refuted",
    "C33_damped_position_refuted",
    "C33_damped_width_refuted",
    "C33_damped_sign_refuted",
    "C33_damped_partial",
    "C33_area_includes_base_line_refuted"
   ],
   "note": "Position and maximum of the asymmetric curve, zero asymmetry, weighted damped curve proved. Refuted: the reported area includes d*xmax of the base line; with any nonzero asymmetry the reported width is not the half height interval; damped position, width and sign."
  },
  {
   "property": "C34",
   "status": "proved",
   "theorems": [
    "C34_free_energy",
    "C34_entropies_agree",
    "C34_cv_is_dE_dT",
    "C34_entropy_is_minus_dF_dT",
    "C34_positive"
   ],
   "note": "Every frequency and temperature > 0, exact arithmetic."
  },
  {
   "property": "C35",
   "status": "proved",
   "theorems": [
    "C35_same_dos",
    "C35_no_shift",
    "C35_correction_value"
   ],
   "note": "Every grid, density of states and temperature; also the exact value of the correction."
  },
  {
   "property": "C36",
   "status": "partial",
   "theorems": [
    "C36_counts",
    "C36_header_partial",
    "C36_interleaved_refuted"
   ],
   "note": "Counts and lengths proved for every structure; the header is right exactly when equal elements are adjacent (both directions proved), so the unrestricted claim is refuted for every interleaved list."
  },
  {
   "property": "C37",
   "status": "partial",
   "theorems": [
    "C37_box",
    "C37_fractional",
    "C37_rigid_partial",
    "C37_left_handed_refuted",
    "C37_types"
   ],
   "note": "Box shape, fractional coordinates, distances and type/mass tables proved for every non-degenerate cell and element order; proper rotation only for right-handed cells, every left-handed cell is mirrored (refuted)."
  },
  {
   "property": "C38",
   "status": "proved",
   "theorems": [
    "C38_lattice",
    "C38_same_angles_needed",
    "C38_write_read"
   ],
   "note": "Lattice from BOX BOUNDS for every box, tilt and file; orientation correct iff the angles agree; round trip with generate_LAMMPS_structure."
  },
  {
   "property": "C39",
   "status": "partial",
   "theorems": [
    "C39_lammps_nonpositive_refuted",
    "C39_xdatcar_nonpositive_refuted",
    "C39_outcar_nonpositive_refuted",
    "C39_lammps_partial",
    "C39_xdatcar_partial",
    "C39_outcar_characterised",
    "C39_outcar_refuted"
   ],
   "note": "LAMMPS and XDATCAR readers: exact window for every complete file and every window within the step limit. OUTCAR reader refuted for every initial_cut > 1: it always returns the first steps of the file. last_steps <= 0 refuted for the three readers: 0 gives the whole window, -m drops its first m steps."
  },
  {
   "property": "C40",
   "status": "partial",
   "theorems": [
    "C40_lammps_partial",
    "C40_xdatcar_partial",
    "C40_xdatcar_refuted",
    "C40_outcar_partial"
   ],
   "note": "LAMMPS (in memory) and OUTCAR proved. XDATCAR proved for initial_cut <= 1 or last_steps within the window, refuted otherwise: initial_cut - 1 time stamps too many. HDF5: see C44."
  },
  {
   "property": "C41",
   "status": "partial",
   "theorems": [
    "C41_lammps_partial",
    "C41_lammps_short_refuted",
    "C41_last_steps_refuted",
    "C41_xdatcar_refuted"
   ],
   "note": "LAMMPS: equal when the window lies inside the file and last_steps is not given; refuted for short files (padding with zeros) and for last_steps (ignored). XDATCAR refuted for every window of two or more steps: only the last step survives."
  },
  {
   "property": "C42",
   "status": "proved",
   "theorems": [
    "C42_permutation",
    "C42_position",
    "C42_inverse"
   ],
   "note": ""
  },
  {
   "property": "C43",
   "status": "partial",
   "theorems": [
    "C43_distinct",
    "C43_reorders",
    "C43_correct_partial",
    "C43_not_permutation_refuted",
    "C43_origin_refuted"
   ],
   "note": "Refuted as stated: the template can hold values outside the atom numbers (C43_not_permutation_refuted, any unwrap m>=1), and for an atom at the origin the search always falls back to file order (C43_origin_refuted, every order and n>=2). Proved: entries are always distinct so argsort always reorders without loss (C43_distinct, C43_reorders), and under small displacements the reordered frame lists each atom where the structure lists it (C43_correct_partial). Exact reals; supercell size <= 0 (division by zero) not modelled."
  },
  {
   "property": "C44",
   "status": "partial",
   "theorems": [
    "C44_roundtrip_partial",
    "C44_projected_roundtrip_partial",
    "C44_window_partial",
    "C44_window_projected_partial",
    "C44_time_window_refuted",
    "C44_read_from_zero_refuted",
    "C44_supercell"
   ],
   "note": "Round trip and windows of trajectory/velocity/vc proved for every data set and window (C44_*_partial), supercell relation recovered (C44_supercell). Refuted: the time axis is never cut to the window (C44_time_window_refuted, every proper window) and --read_from 0 keeps only the last step."
  },
  {
   "property": "C45",
   "status": "partial",
   "theorems": [
    "C45_concatenates_partial",
    "C45_time_refuted",
    "C45_time_skipped_refuted",
    "C45_dropped_refuted",
    "C45_missing_aborts"
   ],
   "note": "Data sets are concatenated in order without their first steps for every number of files (C45_concatenates_partial); a missing velocity aborts (C45_missing_aborts). Refuted: the time axis is the first file's only (C45_time_refuted, C45_time_skipped_refuted) and data absent from the first file is dropped (C45_dropped_refuted)."
  },
  {
   "property": "C46",
   "status": "proved",
   "theorems": [
    "C46_round_trip",
    "C46_old_style",
    "C46_extra_words"
   ],
   "note": "Every grouped structure, both coordinate modes and header styles, up to the printed digits (rnd10/rnd15); printing and parsing of numbers are assumed functions, lines are word lists."
  },
  {
   "property": "C47",
   "status": "proved",
   "theorems": [
    "C47_arranged",
    "C47_lossless",
    "C47_orthonormal"
   ],
   "note": "Every size; the arranged list is entry [branch][atom][dimension], flattening it back gives the same matrix, and orthonormal columns give the orthonormal modes C29 needs. phonopy's eigenvectors are an input."
  },
  {
   "property": "C48",
   "status": "proved",
   "theorems": [
    "C48_equivalent_points",
    "C48_same_length",
    "C48_same_cartesian_length",
    "C48_identity"
   ],
   "note": "Every q, primitive matrix and list of operations, any order of the Python set. q itself is always in the list. Exact equality of reals (float near-duplicates not modelled)."
  },
  {
   "property": "C49",
   "status": "proved",
   "theorems": [
    "C49_decimals",
    "C49_periodic_accepted",
    "C49_accepted_near_periodic",
    "C49_phase_invariant",
    "C49_reciprocal_shift"
   ],
   "note": "Exact reals: both directions of the 4-decimal test, periodicity of the plane wave, and the effect of reciprocal lattice vectors on project_onto_wave_vector."
  },
  {
   "property": "C50",
   "status": "proved",
   "theorems": [
    "C50_selections"
   ],
   "note": "Every integer argument and state; the state is exactly unchanged on rejection."
  },
  {
   "property": "C51",
   "status": "proved",
   "theorems": [
    "C51_bar",
    "C51_bar_monotone",
    "C51_bar_ends",
    "C51_curves"
   ],
   "note": "Progress bar for every int, float, infinity or other argument (nan raises); curve files read back as the table for any number formats free of tabs and newlines."
  },
  {
   "property": "C52",
   "status": "proved",
   "theorems": [
    "C52_crystal",
    "C52_uvrs",
    "C52_symmetric",
    "C52_positive",
    "C52_recover",
    "C52_orthogonal",
    "C52_printed_order",
    "C52_printed"
   ],
   "note": "Exact inverse of the cell; norms are exact square roots. Crystal tensor = second moment of fractional displacements, U* scaling by reciprocal lengths, symmetry, positivity, recovery."
  },
  {
   "property": "C53",
   "status": "partial",
   "theorems": [
    "C53_column",
    "C53_order_partial",
    "C53_order_refuted",
    "C53_follow_partial",
    "C53_follow_refuted",
    "C53_times",
    "C53_frames"
   ],
   "note": "The gathered order is id order exactly when the internal order is an involution (refuted otherwise); with a constant internal order columns still follow one atom; refuted when the squared order changes. Times and counts proved."
  },
  {
   "property": "C54",
   "status": "partial",
   "theorems": [
    "C54_bands_partial",
    "C54_default_refuted",
    "C54_lost_row_refuted"
   ],
   "note": "With -bi all rows are used (proved); without -bi the first row is lost for every file (refuted)."
  },
  {
   "property": "C55",
   "status": "proved",
   "theorems": [
    "C55_temperature",
    "C55_settings_kept"
   ],
   "note": "Every state and history; the Maxwell fit itself (scipy) is an arbitrary function."
  },
  {
   "property": "C56",
   "status": "partial",
   "theorems": [
    "C56_tables",
    "C56_one_row",
    "C56_from_elements",
    "C56_from_masses_partial",
    "C56_identified_once",
    "C56_from_masses_refuted",
    "C56_massless_refuted",
    "C56_standard_weights"
   ],
   "note": "Tables proved consistent; names -> numbers -> masses proved; masses -> names proved when every mass prints like a tabulated positive mass, refuted otherwise (unknown mass: fewer elements than atoms; element with tabulated mass 0: the constructor raises)."
  },
  {
   "property": "C57",
   "status": "partial",
   "theorems": [
    "C57_totals_partial",
    "C57_energy_cv_entropy",
    "C57_nonnegative",
    "C57_first_sample_dropped_refuted"
   ],
   "note": "Proved whenever the first grid point has zero frequency or zero density; otherwise F is off by exactly the first sample (shown nonzero for the 0.01 THz start used by get_thermal_properties)."
  },
  {
   "property": "C58",
   "status": "partial",
   "theorems": [
    "C58_unnormalised_partial",
    "C58_normalised_refuted"
   ],
   "note": "Proved without normalize_dos; with it the harmonic density is not normalised and the exact discrepancy is proved."
  },
  {
   "property": "C59",
   "status": "partial",
   "theorems": [
    "C59_scale_partial",
    "C59_cartesian_scale_refuted"
   ],
   "note": "Cell and direct coordinates proved; Cartesian positions are not scaled: refuted for every s<>1."
  },
  {
   "property": "C60",
   "status": "partial",
   "theorems": [
    "C60_limit_refuted",
    "C60_bounded_partial"
   ],
   "note": "Refuted: limit_number_steps + 2 steps are read from every long enough file; proved bound limit_number_steps + 2."
  },
  {
   "property": "C61",
   "status": "partial",
   "theorems": [
    "C61_columns_refuted",
    "C61_columns_partial"
   ],
   "note": "Refuted for id/type columns and for mixed dumps; proved for dumps whose first columns are x y z (without vx vy) or vx vy vz."
  },
  {
   "property": "C62",
   "status": "partial",
   "theorems": [
    "C62_scale_refuted",
    "C62_unit_scale_partial"
   ],
   "note": "Refuted for every scale factor other than 1; proved for 1."
  },
  {
   "property": "C63",
   "status": "proved",
   "theorems": [
    "C63_band_path"
   ],
   "note": "Every segment and resolution >= 1."
  },
  {
   "property": "C64",
   "status": "proved",
   "theorems": [
    "C64_eigenvalue_of_frequency",
    "C64_frequency_of_eigenvalue"
   ],
   "note": "Exact reals; phonopy's frequency = sign(l) sqrt|l| * unit is taken as the input convention."
  },
  {
   "property": "C65",
   "status": "partial",
   "theorems": [
    "C65_types_partial",
    "C65_types_refuted"
   ],
   "note": "Proved when the first atoms (as many as elements) are pairwise different elements; refuted: two or more atoms of one element followed by hydrogen all get type 1."
  },
  {
   "property": "C66",
   "status": "partial",
   "theorems": [
    "C66_diagonal_partial",
    "C66_nondiagonal_refuted"
   ],
   "note": "Proved for positive diagonal supercells; refuted for every supercell whose diagonal product differs from |det|: the right file is refused."
  },
  {
   "property": "C67",
   "status": "partial",
   "theorems": [
    "C67_xsf_partial",
    "C67_xsf_refuted",
    "C67_by_element_refuted"
   ],
   "note": "Proved when types are 0..n-1; refuted: the loop never ends when a type below n is missing."
  },
  {
   "property": "C68",
   "status": "partial",
   "theorems": [
    "C68_reads_what_the_file_says_partial",
    "C68_mesh_after_bands_refuted",
    "C68_colon_after_bands_refuted",
    "C68_short_matrix_refused"
   ],
   "note": "Proved for all well-formed files in which no list of bands is directly followed by a line mentioning MESH PHONOPY. Refuted for all others: such files always raise; a line with a colon directly after the bands raises too. float()/int() of a word are parameters; 7-bit text."
  },
  {
   "property": "C69",
   "status": "partial",
   "theorems": [
    "C69_first_matching_format_partial",
    "C69_only_the_beginning_counts",
    "C69_late_keywords_refuted",
    "C69_formats_partial"
   ],
   "note": "Proved: the answer is the first format of the list all of whose keywords occur in the bytes checked (non-empty file). Refuted: keywords that come after the bytes checked are not seen, so the format is not recognised."
  },
  {
   "property": "C70",
   "status": "proved",
   "theorems": [
    "C70_defined_and_nonnegative",
    "C70_quadratic_and_phase_blind",
    "C70_real_series_symmetric",
    "C70_columns_and_backends"
   ],
   "note": "_numpy_power over exact reals, np.argsort any function meeting its contract; zero_padding only enters a printed warning, so it has no effect."
  },
  {
   "property": "C71",
   "status": "proved",
   "theorems": [
    "C71_tone_peaks_at_its_frequency"
   ],
   "note": "frequencies on the grid of one piece."
  },
  {
   "property": "C72",
   "status": "partial",
   "theorems": [
    "C72_integral_at_least_mean_square_partial",
    "C72_integral_equals_mean_square_refuted"
   ],
   "note": "the integral is never smaller than the mean square (proved, all series); equality is refuted: taking |.| of the transform of the truncated correlation gives 11/9 of the mean square for a,-a,a,-a."
  },
  {
   "property": "C74",
   "status": "proved",
   "theorems": [
    "C74_full",
    "C74_silent",
    "C74_projected",
    "C74_types_add_up",
    "C74_coordinates_add_up",
    "C74_partials_add_up"
   ],
   "note": "the column spectrum is any function (all six algorithms work column by column: C70 for the FFT ones)."
  },
  {
   "property": "C75",
   "status": "partial",
   "theorems": [
    "C75_coordinate_ignored_refuted",
    "C75_second_request_refuted",
    "C75_fresh_request_partial",
    "C75_setter_partial"
   ],
   "note": "refuted: without a projection on an atom type the coordinate is ignored, and a cached spectrum is returned whatever the arguments. Proved: the setter accepts exactly the types that occur; a first request with atom projection is refused exactly when the type is absent or the coordinate out of range, and otherwise gives the projection asked for (C74_projected)."
  },
  {
   "property": "C73",
   "status": "partial",
   "theorems": [
    "C73_trajectory_partial",
    "C73_phase_refuted",
    "C73_phase_period_refuted",
    "C73_harmonic",
    "C73_mode_energy_partial",
    "C73_equipartition_refuted"
   ],
   "note": "proved: number of frames, times, reported energy, the displacement formula, harmonic motion, equal energy of all modes. Refuted: phase_0 is a factor exp(phase_0) on every displacement instead of a phase, and in three dimensions each mode carries 3/2 kB T."
  },
  {
   "property": "C76",
   "status": "partial",
   "theorems": [
    "C76_densities",
    "C76_plot_centres",
    "C76_written_abscissa_refuted",
    "C76_direction",
    "C76_unequal_types_partial",
    "C76_equal_types_partial"
   ],
   "note": "proved: densities, normalisation, independence of the length of the direction, centres used by the plot. Refuted: the abscissae written to the file are the centres of the preceding bins, outside the bin they stand for. np.histogram is modelled exactly over the reals."
  },
  {
   "property": "C77",
   "status": "partial",
   "theorems": [
    "C77_entries",
    "C77_followed_partial",
    "C77_unchanged_partial",
    "C77_branch_lost_refuted",
    "C77_interconnect_only_refuted"
   ],
   "note": "Entries proved for all data; pairing proved when each harmonic mode has a renormalized mode that is more than half of it along the stretch; refuted without that condition (argmax per row: a branch can be reported twice and another lost) and zero shifts refuted for interconnect_bands without band_connection."
  },
  {
   "property": "C78",
   "status": "partial",
   "theorems": [
    "C78_pairs_kept",
    "C78_continuous_partial",
    "C78_branch_lost_refuted"
   ],
   "note": "Pairs kept proved for all data; continuity proved when each mode has a majority partner at every joint; refuted without it."
  },
  {
   "property": "C79",
   "status": "proved",
   "theorems": [
    "C79_tick_labels",
    "C79_tick_positions"
   ],
   "note": ""
  },
  {
   "property": "C80",
   "status": "proved",
   "theorems": [
    "C80_classical",
    "C80_quantum",
    "C80_compare",
    "C80_energy"
   ],
   "note": ""
  },
  {
   "property": "C81",
   "status": "proved",
   "theorems": [
    "C81_power_spectrum",
    "C81_phonopy"
   ],
   "note": "Exact reals; dos with zero integral excluded (division by zero in the code)."
  },
  {
   "property": "C82",
   "status": "partial",
   "theorems": [
    "C82_spectra_partial",
    "C82_range_ignored_refuted",
    "C82_two_ranges_refuted",
    "C82_refused_partial"
   ],
   "note": "Exact for runs without force-constant requests (C82_spectra_partial), invalid selections (C82_refused_partial). False when force constants or bands are requested: all outputs use the automatic frequency range (C82_range_ignored_refuted), and the two columns of the thermal table use different ranges (C82_two_ranges_refuted)."
  },
  {
   "property": "C83",
   "status": "partial",
   "theorems": [
    "C83_session_partial",
    "C83_renormalized_partial",
    "C83_coefficients_ignored_refuted",
    "C83_selection_partial",
    "C83_selection_accepted_partial",
    "C83_corrections_partial",
    "C83_zero_key_refuted",
    "C83_other_key_refuted"
   ],
   "note": "Freshness proved for all sessions that do not use the entry 'Number of MEM coefficients', which assigns the parameter directly and leaves every cached spectrum (C83_coefficients_ignored_refuted, every state). Algorithm and fitting selections read the first valid key and never fail; in the NAC menu '0' turns the corrections on and any non digit key aborts the session (refuted)."
  },
  {
   "property": "C84",
   "status": "proved",
   "theorems": [
    "C84_listing"
   ],
   "note": "Order, numbering, place and value of every listed number, and the exact condition for the listing to be possible."
  },
  {
   "property": "C85",
   "status": "partial",
   "theorems": [
    "C85_pairs_partial",
    "C85_own_file_refuted",
    "C85_missing_refuted",
    "C85_rounded_refuted",
    "C85_dim_ignored_refuted",
    "C85_points_printed"
   ],
   "note": "Pairing proved for mapping files with exactly one entry per point. Refuted: files written by the program are lists and always refused; a missing point shifts all later frequencies; wave vectors that need more than eight decimals are never matched; --dim is ignored for the force constants."
  },
  {
   "property": "C86",
   "status": "partial",
   "theorems": [
    "C86_file_partial",
    "C86_option_sticks_refuted",
    "C86_supercell_changed_refuted"
   ],
   "note": "Contents proved for any sequence of writes with one supercell choice. Refuted: with_extra changes the cached dictionary, so later files always have velocities; after changing the supercell choice points and frequencies do not belong together."
  },
  {
   "property": "C87",
   "status": "partial",
   "theorems": [
    "C87_thermal_data",
    "C87_rank",
    "C87_increasing_partial",
    "C87_order_refuted"
   ],
   "note": "Thermal data aligned for every order (proved). Force constants: file whose place is the rank of the volume (C87_rank); right for increasing volumes, wrong for some system for every other order (refuted)."
  },
  {
   "property": "C88",
   "status": "partial",
   "theorems": [
    "C88_reference",
    "C88_temperature",
    "C88_default_volume",
    "C88_interpolate_temperature",
    "C88_interpolate_volume_refuted",
    "C88_temperatures_partial",
    "C88_last_temperature_refuted",
    "C88_automatic_path_refuted"
   ],
   "note": "Reference and temperature behaviour proved for any fit and any interpolant through the data. Refuted: interpolate_volume is inverted, the last temperature is never analysed, missing BANDS raises."
  },
  {
   "property": "C89",
   "status": "partial",
   "theorems": [
    "C89_entries",
    "C89_pairs_partial",
    "C89_pairs_refuted"
   ],
   "note": "Entries, order, multiplicity and multisets of values proved at commensurate points; pairing holds when both ascend with the branch and is refuted for every point whose linewidths do not. phonopy is modelled by its exactness at commensurate points and ascending eigenvalues."
  },
  {
   "property": "C90",
   "status": "partial",
   "theorems": [
    "C90_plot",
    "C90_settings",
    "C90_history",
    "C90_print_refuted"
   ],
   "note": "Plots (and prints that complete) are always current (C90_plot). Refuted: printing raises whenever the bands are not already cached by a plot."
  },
  {
   "property": "C91",
   "status": "partial",
   "theorems": [
    "C91_boundary_crossings_invisible",
    "C91_second_order_accurate",
    "C91_uniform_motion_exact",
    "C91_drift_refuted",
    "C91_uneven_time_stamps_refuted"
   ],
   "note": "True while the atom stays within half a cell of the reference (any wrapping), second-order accurate inside, exact for uniform motion; refuted for a drifting atom and for uneven time stamps (one average time step is used)."
  },
  {
   "property": "C92",
   "status": "partial",
   "theorems": [
    "C92_last_constants_used",
    "C92_last_sets_used_partial",
    "C92_misfit_refused",
    "C92_last_sets_returned",
    "C92_explicit_constants",
    "C92_new_sets_ignored_refuted",
    "C92_queries_repeatable",
    "C92_supercell_reported"
   ],
   "note": "Force constants given last are always used; force sets given after force constants (or after the first harmonic query built constants) are ignored (refuted); misfits refused; queries repeatable."
  },
  {
   "property": "C93",
   "status": "partial",
   "theorems": [
    "C93_arrows_up_to_a_factor_partial",
    "C93_arrows_exact_partial",
    "C93_wrong_mass_refuted",
    "C93_frame"
   ],
   "note": "Arrows are along the eigenvector with a positive factor; the exact displacement is drawn only where the mass looked up by type number equals the atom's own mass; refuted otherwise; the frame is the twelve edges."
  },
  {
   "property": "C94",
   "status": "partial",
   "theorems": [
    "C94_best_fit",
    "C94_branches_printed",
    "C94_width_between_partial",
    "C94_failures_leave_no_trace",
    "C94_unknown_errors_stop_everything_refuted",
    "C94_exact_fit_refuted",
    "C94_position_partial",
    "C94_position_refuted"
   ],
   "note": "Best fit, printed branches and irrelevance of failing points proved; width between bounds when all errors are finite and non-zero; refuted: one branch without error estimates raises ZeroDivisionError and nothing is printed, an exact fit makes the width nan, and with the asymmetric curve the printed position is not where the curve peaks."
  },
  {
   "property": "C95",
   "status": "partial",
   "theorems": [
    "C95_all_found_partial",
    "C95_half_phases_partial",
    "C95_extra_point_refuted",
    "C95_missing_points_refuted"
   ],
   "note": "Commensurate points on the grid are found when the grid step has at most five decimals; every returned point has half-integer phases; refuted: the zone corner is always returned (wrong for odd multiplicities), and points such as (1/3,0,0), not multiples of 0.00001, are never returned. Exact real arithmetic."
  },
  {
   "property": "C96",
   "status": "proved",
   "theorems": [
    "C96_parseval",
    "C96_kinetic_energy",
    "C96_opposite",
    "C96_origin",
    "C96_order"
   ],
   "note": "Parseval and kinetic energy are for a primitive cell equal to the unit cell (supercell order of get_positions, types repeated as get_atom_type_index); the symmetries hold for any types and coordinates. Exact real arithmetic."
  },
  {
   "property": "C97",
   "status": "proved",
   "theorems": [
    "C97_mode_bounds",
    "C97_dulong_petit_bound",
    "C97_equipartition",
    "C97_grow_with_temperature",
    "C97_strictly_growing",
    "C97_third_law",
    "C97_dulong_petit_limit",
    "C97_imaginary_modes"
   ],
   "note": "Exact real arithmetic (no overflow of exp and sinh at very low temperature). The limits hold for any quadrature weights; the bounds need non negative weights. Quasiparticle.get_thermal_properties starts its grid at 0.01 THz; negative frequencies reach these functions only through their direct use."
  },
  {
   "property": "C98",
   "status": "partial",
   "theorems": [
    "C98_mem_conjugate",
    "C98_mem_time_reversal",
    "C98_mem_even_and_periodic",
    "C98_mem_quadratic_partial",
    "C98_mem_cutoff_refuted",
    "C98_mem_phase_refuted",
    "C98_direct_quadratic"
   ],
   "note": "conjugation, time reversal, evenness and periodicity of the maximum entropy spectrum hold for every series (C98_mem_conjugate, C98_mem_time_reversal, C98_mem_even_and_periodic); the direct correlation is quadratic for every complex factor (C98_direct_quadratic). The scaling law of the maximum entropy spectrum is proved as long as no denominator falls below the code's absolute threshold 1e-6 (C98_mem_quadratic_partial); without that hypothesis it is false for every series (C98_mem_cutoff_refuted), and phase invariance is false (C98_mem_phase_refuted)."
  },
  {
   "property": "C99",
   "status": "partial",
   "theorems": [
    "C99_local_line",
    "C99_straight_lines_unchanged",
    "C99_linear",
    "C99_units",
    "C99_uniform_grid",
    "C99_small_window_refuted",
    "C99_default_factor_refuted",
    "C99_whole_range_refuted"
   ],
   "note": "the local fit (with uniqueness), exactness on straight lines, linearity, independence of units and success on equally spaced rows with 3 <= k < rows are proved for all sizes. Success in general is refuted: windows of one or two rows contain no neighbour on a grid (C99_small_window_refuted; with the default factor every file of 2..100 rows, C99_default_factor_refuted) and factors >= 1 read past the end (C99_whole_range_refuted). Exact arithmetic: in doubles the singular system of C99_small_window_refuted can be slightly non singular and return noise instead of raising."
  },
  {
   "property": "C100",
   "status": "proved",
   "theorems": [
    "C100_mode_signal",
    "C100_pure_frequency",
    "C100_from_coordinates"
   ],
   "note": "C100_mode_signal: closed form of the mode signal; C100_pure_frequency: degenerate modes/any phases, from hermitian dynamical matrices at +-q; C100_from_coordinates: with wrapped coordinates and the program's own velocities. Composition of the models of generate_test_trajectory (HarmonicModel), the velocity computation (VelocityModel) and projection.py (ProjectionModel) on supercells built as in atoms.py (SupercellModel); unit cell = primitive cell; exact reals. Eigenvectors and frequencies (phonopy) are parameters."
  },
  {
   "property": "C101",
   "status": "partial",
   "theorems": [
    "C101_no_invalid_free_partial",
    "C101_determinant_partial",
    "C101_displacements_refuted",
    "C101_maximum_entropy_refuted",
    "C101_real_velocities_refuted",
    "C101_correlation_refuted"
   ],
   "note": "Allocation skeleton of the three C files with a small separation logic. Proved: no double/invalid free in any call, the recursive determinant and the per-step work are balanced for all sizes. Refuted with exact amounts: displacements keep 16N+16n^2+8n bytes per call (pointer array, rows of Cell_c, cofactor matrix), maximum entropy keeps 8N bytes per call (Velocity_i) plus 16N+8M per part when the recursion is left early - which happens at once for the zero imaginary part of real velocities (linked to MemModel) -, correlation keeps a reference to both input arrays (and the output on a refused method). malloc/conversion failures are not modelled."
  },
  {
   "property": "C102",
   "status": "partial",
   "theorems": [
    "C102_printed",
    "C102_save_vq",
    "C102_save_vc",
    "C102_time_axis_refuted",
    "C102_time_axis_partial",
    "C102_plots_disagree_refuted",
    "C102_numbering",
    "C102_plot_vq",
    "C102_plot_vc"
   ],
   "note": "Files proved for all tables (C102_printed, C102_save_vq, C102_save_vc). Refuted: the time axes run to n*dt instead of (n-1)*dt, so every frame but the first is drawn at k*dt*n/(n-1); save_vc numbers atoms from one and plot_vc from zero (C102_numbering)."
  },
  {
   "property": "C103",
   "status": "partial",
   "theorems": [
    "C103_mean_and_deviation",
    "C103_printed",
    "C103_sign_of_sigma",
    "C103_translation_partial",
    "C103_negative_side_refuted",
    "C103_positive_side_accepted",
    "C103_error_depends_on_origin_refuted"
   ],
   "note": "Mean, deviation, maximum, sign of sigma and equivariance of the values proved for every parameter vector. Refuted: the area is taken from 0 to the last abscissa, so distributions on the negative side are always refused and the error shrinks when the origin is moved (both universal)."
  },
  {
   "property": "C104",
   "status": "partial",
   "theorems": [
    "C104_constants",
    "C104_shifts",
    "C104_dos_gradient",
    "C104_dos_gradient_refuted",
    "C104_tables",
    "C104_volume",
    "C104_outside_refuted",
    "C104_linewidths_partial",
    "C104_linewidths_refuted"
   ],
   "note": "Proved for the total shifts, the force constants files, the EOS tables and the interpolated volume.  Refuted: plot_dos_gradient pairs temperatures[::40] with volumes[::20] (C104_dos_gradient_refuted); temperatures outside the table are clamped to the end volumes by np.interp instead of refused (C104_outside_refuted); linewidths against volume use the index of the wave vector in one file for all files (C104_linewidths_refuted; right when all files list the wave vectors in the same order, C104_linewidths_partial)."
  },
  {
   "property": "C105",
   "status": "partial",
   "theorems": [
    "C105_processes_partial",
    "C105_files_removed_partial",
    "C105_two_trajectories_refuted",
    "C105_shorter_refuted",
    "C105_scaled_file_left_refuted",
    "C105_two_deletes_refuted"
   ],
   "note": "Proved for every interleaving of any number of processes that each read one trajectory: getters agree with in-memory trajectories, and a process that read positions or velocities leaves none of its four files. Refuted: two trajectories in one process share trajectory.<pid> (the first shows the second, or fails when it is shorter), the XDATCAR file is never removed, and a second deletion stops at the file the first one removed and leaves r_trajectory.<pid>."
  },
  {
   "property": "C106",
   "status": "proved",
   "theorems": [
    "C106_as_written",
    "C106_rectangular"
   ],
   "note": "Byte-level model of the memory map (find from the current position, seek, readline, read, split). Conversions of bytes to numbers are functions of the bytes. Assumes one line per table row with separated columns (VASP runs columns together for components of -10 A and below; such files raise). Whatever the file, cell and positions that are read are rectangular."
  },
  {
   "property": "C107",
   "status": "partial",
   "theorems": [
    "C107_crystal_given",
    "C107_stretches_and_labels",
    "C107_named_points_partial",
    "C107_conventional_cell_refuted",
    "C107_without_seekpath"
   ],
   "note": "True when the structure's primitive cell is the one seekpath's coordinates refer to (C107_named_points_partial); false otherwise: the code ignores seekpath's primitive_lattice (C107_conventional_cell_refuted, every lattice parameter). The rest of the property is proved."
  },
  {
   "property": "C108",
   "status": "partial",
   "theorems": [
    "C108_total_dos_per_unit_cell",
    "C108_projected_dos",
    "C108_projected_pitch_refuted",
    "C108_thermal_per_unit_cell",
    "C108_group_velocity",
    "C108_no_forces",
    "C108_legend",
    "C108_dos_plot"
   ],
   "note": "All proved except the requested spacing, which is not handed over for projected densities (C108_projected_pitch_refuted)."
  },
  {
   "property": "C109",
   "status": "partial",
   "theorems": [
    "C109_set_cell_refuted",
    "C109_set_cell_first_partial",
    "C109_set_cell_then_matrix_partial"
   ],
   "note": "Refuted: set_cell keeps the cached primitive cell once it was asked for. Proved: it is right when the primitive cell and the types were never asked for, and whenever set_primitive_matrix follows set_cell."
  },
  {
   "property": "C110",
   "status": "proved",
   "theorems": [
    "C110_cell_and_matrix",
    "C110_masses",
    "C110_masses_length"
   ],
   "note": "Over every history of the modelled setters and queries. C01_object_positions in the same file is the corresponding statement for supercell positions."
  },
  {
   "property": "C111",
   "status": "partial",
   "theorems": [
    "C111_bose_einstein_partial",
    "C111_monotone_partial",
    "C111_below_zero_point",
    "C111_quantum_refuted",
    "C111_temperature_refuted"
   ],
   "note": "Proved with the quantum the code uses (h/(2 pi) times nu): occupation number, energy identity, classical bounds, monotony, behaviour below the zero point. Refuted for the true quantum h*nu: a mode holding n quanta is printed as 2 pi n + pi - 1/2 for every n and nu, and the temperature printed for a mode in equilibrium at T0 is always above T0."
  },
  {
   "property": "C112",
   "status": "partial",
   "theorems": [
    "C112_constants_agree",
    "C112_conversion_refuted",
    "C112_modes_counted_refuted",
    "C112_fit_temperature_refuted"
   ],
   "note": "Proved: the three Boltzmann and two Planck constants agree within 1e-6. Refuted: unit_conversion is between 2 and 2.2 percent too large, so the density of states counts 2 percent too many modes and fit temperatures of classical modes are more than 1 percent too high."
  },
  {
   "property": "C113",
   "status": "proved",
   "theorems": [
    "C113_kinetic_temperature",
    "C113_estimate_unique",
    "C113_only_energy",
    "C113_scaling",
    "C113_printed"
   ],
   "note": "scipy's maxwell.fit enters as any estimator that maximises the Maxwell likelihood (which is what it minimises the negative of); its numerical convergence is outside. Velocities real (norms of complex velocities not modelled); the factor 3 is the Maxwell distribution's, so for a trajectory in fewer than three dimensions T is not the equipartition temperature of that dimension."
  },
  {
   "property": "C114",
   "status": "partial",
   "theorems": [
    "C114_asymmetric_partial",
    "C114_asymmetric_exists",
    "C114_asymmetric_sign_refuted",
    "C114_lorentzian",
    "C114_lorentzian_exists",
    "C114_analysis",
    "C114_damped_partial",
    "C114_damped_mirror_refuted",
    "C114_analysis_degenerate",
    "C114_analysis_damped_partial",
    "C114_analysis_asymmetric_partial"
   ],
   "note": "Lorentzian: proved (C114_lorentzian, C114_analysis end to end; the sign-flipped parameters are reported as a failed fit). Damped oscillator: width, height and base line recovered, position only up to sign: C114_damped_mirror_refuted shows the mirrored solution fits equally well and is reported at the negative frequency. Asymmetric Lorentzian: with 45 or more different frequencies every least-squares solution has the true centre, asymmetry and base line and is the same curve everywhere (zeros of sums of polynomials times exponentials, then growth), so position, height and area of the report are the true ones and the width is up to sign (C114_asymmetric_partial); the coefficients of negative width fit equally well and are reported as good (C114_asymmetric_sign_refuted, every peak). curve_fit enters as any least-squares minimiser; its convergence is outside. End to end through phonon_fitting_analysis for the three shapes, with or without averaging of degenerate branches: C114_analysis_degenerate, C114_analysis_damped_partial, C114_analysis_asymmetric_partial."
  },
  {
   "property": "C115",
   "status": "proved",
   "theorems": [
    "C115_mem_any_schedule",
    "C115_correlation_any_schedule",
    "C115_completes",
    "C115_mem_spectrum",
    "C115_correlation_spectrum"
   ],
   "note": "Interleaving (sequentially consistent) semantics in which every read and write of the shared output is a separate step; race freedom, proved for every reachable state, is what lets the weaker C memory model inherit the result. The evaluation functions (whose locals are function-local in C) are single steps; coefficients are computed before the loop. D is abstract, so the equality is bitwise for any floating point arithmetic; C115_mem_spectrum and C115_correlation_spectrum connect it to the sequential models of C17-C20 (exact reals). OpenMP's own guarantee (every iteration executed once, barrier at the end) is assumed."
  },
  {
   "property": "C116",
   "status": "proved",
   "theorems": [
    "C116_oscillation_peaks_at_its_frequency",
    "C116_no_other_peak",
    "C116_column",
    "C116_mode_of_ideal_trajectory"
   ],
   "note": "peak at f for every phase, length and frequency (C116_oscillation_peaks_at_its_frequency), no other peak for n>=4 (C116_no_other_peak; tie at n=3 shown by C116_three_samples_tie), columns of all four algorithms, modes of the ideal trajectory (interior samples of np.gradient)"
  },
  {
   "property": "C117",
   "status": "partial",
   "theorems": [
    "C117_undisturbed",
    "C117_screen_partial",
    "C117_silent_refuted",
    "C117_missing_library_refuted",
    "C117_partials_refuted",
    "C117_two_coordinates",
    "C117_interrupt_refuted",
    "C117_settings_refuted"
   ],
   "note": "Every session, failure time and trajectory. Holds for full and phonon spectra with screen output when routines fail (C117_screen_partial) and for everything when nothing fails (C117_undisturbed). Missing, refuted universally: in silent mode a failed full spectrum is remembered half summed and returned by the next call; the same for partial spectra; an interruption between the two assignments of get_power_spectrum_full; a failed temperature fit leaves silent on. No atom projection and no symmetry in this model."
  },
  {
   "property": "C118",
   "status": "partial",
   "theorems": [
    "C118_undisturbed",
    "C118_uninitialised_refuted",
    "C118_single_frame_refuted",
    "C118_factors_partial",
    "C118_interrupt_refuted"
   ],
   "note": "Every session, memory content and cell pair. Holds undisturbed (C118_undisturbed) and for the supercell factors under any interruptions (C118_factors_partial). Missing, refuted universally: after a refused cell the mass-weighted velocities are whatever memory contained; one-frame trajectories give zeros on the second request; an interruption leaves zeros in the remaining columns. In-memory arrays only; relative trajectory given."
  },
  {
   "property": "C119",
   "status": "partial",
   "theorems": [
    "C119_mem_area_partial",
    "C119_weak_signal_refuted",
    "C119_predictable_motion_refuted"
   ],
   "note": "proved for every series, order and time step whenever the routine's residual power is not 0; missing: false when it is 0 (weak signals under the absolute 1e-6 threshold, exactly predictable motion), where the spectrum is 0 everywhere - shown by the two refutations"
  },
  {
   "property": "C120",
   "status": "partial",
   "theorems": [
    "C120_same_program",
    "C120_residual_power_partial",
    "C120_negative_spectrum_refuted"
   ],
   "note": "C120_same_program: the generic routine over the reals is the model of C19/C20/C98/C119. C120_residual_power_partial: for every buffer of doubles, when the returned residual is a number it is 0 or lies between -((N+2) 2^-48 P + 2^-1075) and P, the mean square as computed. Non-negativity itself is false (C120_negative_spectrum_refuted): two adjacent doubles near 1.134 give a reflection coefficient of 1 + 2^-52, a negative residual and a spectrum at frequency 0 below -10^16 dt. Missing: a bound on the spectrum itself (there is none: the denominator can vanish)."
  },
  {
   "property": "C121",
   "status": "partial",
   "theorems": [
    "C121_fft_contract",
    "C121_fft_partial",
    "C121_fft_outside_refuted",
    "C121_maximum_entropy",
    "C121_too_many_coefficients_refuted",
    "C121_correlation_partial",
    "C121_correlation_tail_refuted",
    "C121_same_program"
   ],
   "note": "Maximum entropy: proved for 2 <= N and M < N (C121_maximum_entropy; the Python caller insists on M + 1 < N); with M >= N the residual is 0 for every buffer (C121_too_many_coefficients_refuted). Direct method: a number certifies every sample but the last `step` ones, and with the trapezoidal rule those from `step` on as well (C121_correlation_partial); with the rectangular rule the last `step` samples have no influence (C121_correlation_tail_refuted). FFT methods: a number at any frequency certifies every sample of every piece (C121_fft_partial), for any transform in which each output depends on each input (contract met by the schoolbook DFT with any phases, C121_fft_contract) and any modulus that keeps NaN and infinity out; samples outside all pieces have no influence (C121_fft_outside_refuted). np.correlate and np.average add in index order in the model."
  },
  {
   "property": "C122",
   "status": "proved",
   "theorems": [
    "C122_mode_amplitude",
    "C122_silent_mode",
    "C122_amplitudes_unique"
   ],
   "note": "all wave vectors and modes of a supercell that is a multiple of the primitive cell; eigenvectors at -q are the conjugates"
  },
  {
   "property": "C123",
   "status": "partial",
   "theorems": [
    "C123_mode_series",
    "C123_running_wave_at_opposite_q",
    "C123_running_wave_at_own_q",
    "C123_own_frequency_refuted",
    "C123_own_frequency_odd_refuted",
    "C123_standing_wave_partial"
   ],
   "note": "refuted for waves running along q, for every piece length (C123_own_frequency_refuted: value 0 at the mode's own frequency in pieces of an even number of samples; C123_own_frequency_odd_refuted: exact value, at most a third of the peak, in pieces of an odd number); proved for standing waves (C123_standing_wave_partial) and, for running waves, at -q"
  },
  {
   "property": "C124",
   "status": "proved",
   "theorems": [
    "C124_reconstruction",
    "C124_injective",
    "C124_rest"
   ],
   "note": "the projections at all wave vectors of the supercell and all modes rebuild the velocities exactly (C124_reconstruction), determine them (C124_injective) and vanish exactly for atoms at rest (C124_rest); the primitive cell is the unit cell, as in C96/C122"
  },
  {
   "property": "C125",
   "status": "partial",
   "theorems": [
    "C125_orthonormal_unchanged_partial",
    "C125_exactly_when_partial",
    "C125_not_orthonormal_refuted"
   ],
   "note": "Proved: already orthonormal eigenvectors are returned unchanged (C125_orthonormal_unchanged_partial) and the exact condition under which the result is orthonormal (C125_exactly_when_partial). Refuted for every orthogonal set in which two modes of different lengths move one coordinate: rows are normalised, the eigenvectors are columns."
  },
  {
   "property": "C126",
   "status": "proved",
   "theorems": [
    "C126_lammps_xdatcar",
    "C126_times",
    "C126_outcar"
   ],
   "note": "reading in memory; OUTCAR from the first step only (C39 describes the other windows); time stamps under the condition of C40"
  },
  {
   "property": "C127",
   "status": "partial",
   "theorems": [
    "C127_one_spectrum_partial",
    "C127_negative_refuted",
    "C127_translations_refuted"
   ],
   "note": "Proved for wave vectors with non-negative components that are images of each other under an operation, after any history. Refuted: a wave vector with a negative component enters its own average in addition to its images (exact difference, C127_negative_refuted); images are not folded back into the cell, so q and (1,1,1)-q are never averaged (C127_translations_refuted). Exact arithmetic: in doubles nearly equal images may be counted twice."
  },
  {
   "property": "C128",
   "status": "partial",
   "theorems": [
    "C128_row_by_row",
    "C128_own_shifts_partial",
    "C128_own_shifts_refuted",
    "C128_size_partial",
    "C128_ragged_refused",
    "C128_single_entry_refuted",
    "C128_missing_file",
    "C128_missing_volume_file",
    "C128_surplus_refuted",
    "C128_listing_order_partial",
    "C128_last_listed_refuted",
    "C128_reference_required_refuted",
    "C128_consistent_input",
    "C128_runs_partial"
   ],
   "note": "refuted as stated: files are paired row by row with the first one (C128_own_shifts_refuted), a file with one entry is repeated (C128_single_entry_refuted), surplus files are ignored (C128_surplus_refuted), the temperature listed last decides whether the script runs (C128_last_listed_refuted), without a reference temperature it always stops (C128_reference_required_refuted); proved for files listing the wave vectors in one order (C128_own_shifts_partial, C128_listing_order_partial, C128_runs_partial), with the frequencies of C88 (C128_consistent_input)"
  },
  {
   "property": "C129",
   "status": "partial",
   "theorems": [
    "C129_samples_partial",
    "C129_cell_partial",
    "C129_cell_refuted",
    "C129_temperature_partial",
    "C129_temperature_refuted",
    "C129_other_style_refused",
    "C129_no_temperature",
    "C129_start",
    "C129_one_atom_refused",
    "C129_succeeds_partial",
    "C129_clock_partial",
    "C129_clock_refuted",
    "C129_rounding_refuted"
   ],
   "note": "Samples, columns (given C53), lengths, starting point, refusals and the exact step counts proved for every engine. Refuted for every run: stamps are one interval early (and not in ps outside metal units); the cell is that of the start when the box changes; a fix of the script with another name keeps moving the atoms next to the thermostat; in binary64 0.3 ps of 0.1 ps steps is two steps."
  },
  {
   "property": "C130",
   "status": "partial",
   "theorems": [
    "C130_lammps_partial",
    "C130_lammps_refuted",
    "C130_xdatcar",
    "C130_outcar",
    "C130_time_line_refused",
    "C130_count_line_refused",
    "C130_empty_window_lammps",
    "C130_empty_window_xdatcar",
    "C130_empty_window_outcar",
    "C130_lammps_line_partial",
    "C130_lammps_line_refuted",
    "C130_xdatcar_line_partial",
    "C130_xdatcar_line_refuted",
    "C130_outcar_line",
    "C130_outcar_energy_partial",
    "C130_outcar_energy_refuted"
   ],
   "note": "XDATCAR and OUTCAR: refused at every cut between lines. LAMMPS: refused at every cut between lines but one; a dump cut right after its ITEM: ATOMS line is accepted with one time stamp more than frames (refuted for every such dump). Inside a coordinate line: OUTCAR always refused; LAMMPS with two or more atoms and XDATCAR refused unless it is the last line of the step and three numbers can still be read; then the step is read with the truncated number (C130_lammps_line_refuted, C130_xdatcar_line_refuted, for every such file). Inside the energy line of an OUTCAR: refused unless a number is left, which is then the energy of the step (C130_outcar_energy_refuted). Cuts inside header lines are not covered. Reading without a range is stated (default options)."
  },
  {
   "property": "C131",
   "status": "partial",
   "theorems": [
    "C131_simulation_cell",
    "C131_unit_cell_value",
    "C131_unit_cell_partial",
    "C131_unit_cell_refuted",
    "C131_parameters_rows",
    "C131_parameters_order_partial",
    "C131_parameters_order_refuted"
   ],
   "note": "Average positions over the simulation cell: proved end to end (element, true mean, folding). Refuted: the unit-cell average adds m times the mean displacement when a type has m atoms per unit cell; the rows of the displacement parameters are grouped by type, so they are not in the order of the atoms when types are mixed. The printed digits are not modelled."
  },
  {
   "property": "C132",
   "status": "partial",
   "theorems": [
    "C132_file_is_read",
    "C132_structure_constants",
    "C132_structure_sets",
    "C132_forces_refused",
    "C132_supercell_ignored_refuted",
    "C132_parameters",
    "C132_default_mesh",
    "C132_left_over_refuted",
    "C132_qha_partial",
    "C132_qha_refuted",
    "C132_rfc_bands_refuted",
    "C132_rfc_automatic",
    "C132_rfc_forces_partial",
    "C132_rfc_supercell_refuted"
   ],
   "note": "dynaphopy: proved from the file text to the structure, force supercell and parameters. Refuted: a SUPERCELL MATRIX without a force file has no effect; bands and mesh of an earlier analysis in the same process are kept when the file names none; the quasi-harmonic script never uses the automatic path (it stops without BANDS) and rfc_calc -p stops with BANDS; rfc_calc refuses force files without SUPERCELL MATRIX."
  },
  {
   "property": "C133",
   "status": "proved",
   "theorems": [
    "C133_figures",
    "C133_quantities",
    "C133_dispersion",
    "C133_legend",
    "C133_range",
    "C133_ticks",
    "C133_scatter"
   ],
   "note": "All data, any palette. Curves per figure by title (C133_figures), quantities linked to the arrays (C133_quantities), red/blue curves and ribbons (C133_dispersion), legend, abscissa limits, ticks, scatter."
  },
  {
   "property": "C134",
   "status": "partial",
   "theorems": [
    "C134_wave_vector",
    "C134_temperature",
    "C134_volume_partial",
    "C134_volume_refuted",
    "C134_lines",
    "C134_labels_refuted",
    "C134_external_data_refuted",
    "C134_saved_partial"
   ],
   "note": "Temperature plots and tables proved (C134_temperature, C134_saved_partial), lines (C134_lines), volume plot characterised exactly (C134_volume_partial). Refuted: plot_shift_volume and plot_fitted_shifts_volumes carry the same title but differ by the fitted reference shift; with tick labels Python 3 stops before any table is written (iteritems); plot_band_structure_constant_pressure fails with its default argument. Fit and spline uninterpreted."
  },
  {
   "property": "C135",
   "status": "partial",
   "theorems": [
    "C135_same_coefficients",
    "C135_one_optimisation",
    "C135_failure_forgotten",
    "C135_exceptions",
    "C135_curve_of_failed_fit_refuted",
    "C135_report_on_the_curve",
    "C135_start",
    "C135_start_height_refuted"
   ],
   "note": "Proved for all histories: one set of coefficients (C135_same_coefficients), the optimiser is run again only after failures and always from the same point (C135_one_optimisation, C135_start: the guesses count only when both are given), failures are forgotten (C135_failure_forgotten), reported height = drawn height at the reported position (C135_report_on_the_curve). Refuted: asking a failed fit for its curve raises (C135_curve_of_failed_fit_refuted); the curve at the starting point does not have the guessed height, which is handed over as the area parameter (C135_start_height_refuted, all four functions)."
  },
  {
   "property": "C136",
   "status": "partial",
   "theorems": [
    "C136_guess",
    "C136_spectrum",
    "C136_figures",
    "C136_figures_change_nothing",
    "C136_printed_shifts",
    "C136_line_partial",
    "C136_line_refuted"
   ],
   "note": "Proved: C136_figures (pairing of columns, fits, figures; returned position and width), C136_figures_change_nothing, C136_printed_shifts, C136_guess; for the Lorentzian without thermal expansion the line is at the top of the drawn curve (C136_line_partial). Refuted: with a thermal expansion shift the line is moved but the curve is not (C136_line_refuted, every nonzero shift). Whether the installed matplotlib accepts alpha='0.2' is a parameter."
  },
  {
   "property": "C137",
   "status": "proved",
   "theorems": [
    "C137_gaussian",
    "C137_exists",
    "C137_three_samples_refuted"
   ],
   "note": "curve_fit is any exact least-squares solution (existence shown: the true parameters); at least seven different sample points, three are refuted"
  },
  {
   "property": "C138",
   "status": "partial",
   "theorems": [
    "C138_old_versions_refuted",
    "C138_import_partial",
    "C138_atoms",
    "C138_matrices_partial",
    "C138_matrices_exist_partial",
    "C138_method_removed_refuted",
    "C138_constants",
    "C138_sets",
    "C138_nac",
    "C138_set_get"
   ],
   "note": "Importing: exactly characterised (C138_import_partial); refuted for every phonopy that has VaspToTHz only in phonopy.units (C138_old_versions_refuted: the code asks for VaspToTHza, so the import fails although pyproject accepts phonopy>=2.0) and for every one without set_dynamical_matrices (C138_method_removed_refuted). Proved: class chosen, eigenvalues have the given frequencies for both interfaces, force data used exactly when the properties are settable, NAC, set/get."
  },
  {
   "property": "C139",
   "status": "partial",
   "theorems": [
    "C139_exact",
    "C139_energy_partial",
    "C139_entropy_cv_partial",
    "C139_free_energy_refuted",
    "C139_printed_infinite",
    "C139_zero_frequency",
    "C139_printed_partial"
   ],
   "note": "Proved for all cold doubles (h f above about 1437 k T): energy samples are the textbook ones up to 1e-15; entropy and heat capacity samples are 0, within k_b/1e20 of the exact; frequency 0; the integrands are ThermalModel's in exact arithmetic; and the printed values are the integrals times Avogadro's number (per 1000 for energies) up to 1e-15. Refuted: the free energy summand becomes the largest double (np.nan_to_num of infinity) and the printed free energy infinite."
  },
  {
   "property": "C140",
   "status": "partial",
   "theorems": [
    "C140_history_partial",
    "C140_asked_partial",
    "C140_zero_kelvin_refuted",
    "C140_crop_refuted"
   ],
   "note": "Proved for every history without cropping (C140_history_partial) and for every non-zero temperature asked for, cropping included (C140_asked_partial). Refuted: set_temperature(0) is taken for 'none given' (C140_zero_kelvin_refuted), and the estimate cached before crop_trajectory survives it (C140_crop_refuted)."
  },
  {
   "property": "C141",
   "status": "partial",
   "theorems": [
    "C141_quasiharmonic_partial",
    "C141_thermal_volume",
    "C141_density_plot_refuted",
    "C141_band_gradient",
    "C141_dispersions_partial",
    "C141_mesh_refuted"
   ],
   "note": "Proved: get_dos, thermal tables, dispersions of the quasi-harmonic script belong to the force constants of their temperature and volume with the chosen correction; paths start and end at the range; gradient curves use the volume of their own temperature; dynaphopy's two dispersions share paths and correction. Refuted, for every phonopy whose result depends on the correction: plot_density_of_states and the mesh data are computed without it. Direction of approach at the zone centre and band connection are not modelled."
  },
  {
   "property": "C142",
   "status": "partial",
   "theorems": [
    "C142_edges_partial",
    "C142_own_partial",
    "C142_crossing_refuted"
   ],
   "note": "Proved for every list of modes: edges and frequencies are the fitted ones in ascending order, linewidths are non-negative with the fitted sum, frequencies lie between the edges, and when the edges keep the order of the modes each frequency has its own linewidth. Refuted without band connection: for two modes the listed linewidths are the fitted ones exactly when they differ by at most twice the distance of the frequencies. At wave vectors between the commensurate ones phonopy's interpolation is not modelled."
  }
 ]
}