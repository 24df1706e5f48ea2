{
 "claims": [
  {
   "property": "C01",
   "status": "proved",
   "theorems": [
    "C01_write_history_preserved",
    "C01_prefix_before_close",
    "C01_readback",
    "C01_write_after_close_is_lost"
   ],
   "note": "write/flush/close sessions on new and existing files; write after close is silently dropped (finding)"
  },
  {
   "property": "C02",
   "status": "proved",
   "theorems": [
    "C02_wrapping_reads_are_cyclic",
    "C02_start_reachable"
   ],
   "note": "all read sizes, any start below the count"
  },
  {
   "property": "C03",
   "status": "proved",
   "theorems": [
    "C03_nonwrapping_reads_deliver_once",
    "C03_single_read",
    "C03_read_at_end",
    "C03_read_zero_reads_all_refuted"
   ],
   "note": "read(0) is treated as 'no size given' and reads all: C03_read_zero_reads_all_refuted is the witness"
  },
  {
   "property": "C04",
   "status": "proved",
   "theorems": [
    "C04_seek_wrap",
    "C04_seek_nowrap",
    "C04_seek_errors"
   ],
   "note": ""
  },
  {
   "property": "C05",
   "status": "proved",
   "theorems": [
    "C05_file_roundtrip",
    "C05_append",
    "C05_truncation"
   ],
   "note": "includes truncation at any byte after the header"
  },
  {
   "property": "C06",
   "status": "proved",
   "theorems": [
    "C06_open_guards",
    "C06_readonly_never_writes"
   ],
   "note": "documented modes r, w, a"
  },
  {
   "property": "C07",
   "status": "proved",
   "theorems": [
    "C07_merge_is_concatenation",
    "C07_merge_crash_keeps_inputs",
    "C07_merge_guards"
   ],
   "note": ""
  },
  {
   "property": "C08",
   "status": "proved",
   "theorems": [
    "C08_normalize_only_weights",
    "C08_normalize",
    "C08_normalize_atomic"
   ],
   "note": ""
  },
  {
   "property": "C09",
   "status": "proved",
   "theorems": [
    "C09_merge_and_normalize",
    "C09_mean_weight",
    "C09_nothing_recorded"
   ],
   "note": "weights: exactness of the double division on the recorded weights is a hypothesis of C09_mean_weight; the file content theorem has no such hypothesis"
  },
  {
   "property": "C10",
   "status": "proved",
   "theorems": [
    "C10_partition_fair",
    "C10_rank_share",
    "C10_ranks_cover",
    "C10_float_ceil_exact"
   ],
   "note": "counts as integers; C10_float_ceil_exact covers the double arithmetic below 2^53"
  },
  {
   "property": "C11",
   "status": "proved",
   "theorems": [
    "C11_run1_batches",
    "C11_run1_errors",
    "C11_samples_recorded"
   ],
   "note": ""
  },
  {
   "property": "C12",
   "status": "proved",
   "theorems": [
    "C12_pyre_main_batches",
    "C12_pyre_rank",
    "C12_degenerate",
    "C12_simulates_ncount_refuted",
    "C12_float_floor_exact"
   ],
   "note": "a negative buffer_size that divides ncount simulates nothing without an error (finding, C12_simulates_ncount_refuted)"
  },
  {
   "property": "C13",
   "status": "proved",
   "theorems": [
    "C13_plan_usable",
    "C13_workers_cover_ncount",
    "C13_more_nodes_than_neutrons"
   ],
   "note": "more nodes than neutrons makes the surplus workers crash (finding)"
  },
  {
   "property": "C14",
   "status": "proved",
   "theorems": [
    "C14_ranks_share_the_stream",
    "C14_unequal_shares_skip_neutrons_refuted"
   ],
   "note": "message passing semantics with FIFO queues per (source, destination, tag); proved for all schedules through a confluence theorem (MpiKahn.v)"
  },
  {
   "property": "C15",
   "status": "proved",
   "theorems": [
    "C15_barrier_terminates",
    "C15_workers_wait_for_rank0",
    "C15_rank0_waits_if_sends_are_synchronous",
    "C15_everybody_waits_for_everybody_refuted",
    "C15_stale_message_opens_barrier_refuted"
   ],
   "note": "the implementation is not a barrier: witnesses in C15_everybody_waits_for_everybody_refuted and C15_stale_message_opens_barrier_refuted"
  },
  {
   "property": "C16",
   "status": "proved",
   "theorems": [
    "C16_parallel_equals_serial",
    "C16_every_file_to_one_rank",
    "C16_no_files",
    "C16_assertion_leaves_others_waiting"
   ],
   "note": "for every associative addition; rounding of doubles not modelled; the final MPI Barrier is left out of the model"
  },
  {
   "property": "C17",
   "status": "proved",
   "theorems": [
    "C17_normalised_result",
    "C17_split_independent",
    "C17_parallel_result"
   ],
   "note": "exact rational arithmetic"
  },
  {
   "property": "C18",
   "status": "proved",
   "theorems": [
    "C18_proper_rotation",
    "C18_meaning_degrees",
    "C18_meaning_radians",
    "C18_unit_degrees_refuted"
   ],
   "note": ""
  },
  {
   "property": "C19",
   "status": "proved",
   "theorems": [
    "C19_angles_of_rotation",
    "C19_round_trip",
    "C19_returned_angles_are_close",
    "C19_near_gimbal_fails",
    "C19_every_rotation_converts_refuted",
    "C19_out_of_range_is_silent"
   ],
   "note": ""
  },
  {
   "property": "C20",
   "status": "proved",
   "theorems": [
    "C20_there_and_back",
    "C20_placements_inverse",
    "C20_change_of_coordinates",
    "C20_composes",
    "C20_shortcut_error",
    "C20_speeds_and_distances",
    "C20_spin_not_rotated"
   ],
   "note": ""
  },
  {
   "property": "C21",
   "status": "proved",
   "theorems": [
    "C21_answers_follow_declarations",
    "C21_declarations_determine",
    "C21_resolvable_is_answered",
    "C21_cycles_never_answered",
    "C21_long_chain_fails",
    "C21_answers_never_change",
    "C21_reregistration_counts_refuted"
   ],
   "note": ""
  },
  {
   "property": "C22",
   "status": "proved",
   "theorems": [
    "C22_components_in_order",
    "C22_first_exception_stops",
    "C22_laboratory_coordinates",
    "C22_same_name_is_dropped",
    "C22_every_component_runs_refuted"
   ],
   "note": ""
  },
  {
   "property": "C23",
   "status": "proved",
   "theorems": [
    "C23_only_live_neutrons_presented",
    "C23_snapshot",
    "C23_final_buffer",
    "C23_only_negative_dropped_refuted"
   ],
   "note": ""
  },
  {
   "property": "C24",
   "status": "proved",
   "theorems": [
    "C24_each_event_scattered_once",
    "C24_stateless",
    "C24_multiple_scattering"
   ],
   "note": ""
  },
  {
   "property": "C25",
   "status": "proved",
   "theorems": [
    "C25_group_members_independent",
    "C25_restore_neutron",
    "C25_restore_in_chain"
   ],
   "note": ""
  },
  {
   "property": "C26",
   "status": "proved",
   "theorems": [
    "C26_run_uses_last_assignment",
    "C26_reading_back",
    "C26_reading_back_is_stale",
    "C26_reading_back_refuted",
    "C26_restore_flag",
    "C26_second_run_fails",
    "C26_restore_assignment_refuted"
   ],
   "note": "staleness of reading back, and the restore_neutron failures, are findings with _refuted witnesses"
  },
  {
   "property": "C27",
   "status": "proved",
   "theorems": [
    "C27_last_registration_wins",
    "C27_unregistered_lookup",
    "C27_listing",
    "C27_mcstas_lookup",
    "C27_last_repository_first_refuted"
   ],
   "note": "the two registries prefer opposite ends of the repository list (C27_last_repository_first_refuted)"
  },
  {
   "property": "C28",
   "status": "proved",
   "theorems": [
    "C28_cache_key",
    "C28_cache_hit",
    "C28_cache_content",
    "C28_kept_run_ignores_values",
    "C28_unique_key_refuted"
   ],
   "note": "values are not part of the key: C28_unique_key_refuted; the hash is a parameter of the model"
  },
  {
   "property": "C29",
   "status": "proved",
   "theorems": [
    "C29_identifier",
    "C29_unique_and_complete",
    "C29_out_of_range",
    "C29_event_file",
    "C29_unique_for_every_size_refuted"
   ],
   "note": ""
  },
  {
   "property": "C30",
   "status": "proved",
   "theorems": [
    "C30_time_channel",
    "C30_too_many_time_channels",
    "C30_position_channel",
    "C30_nearest_pixel",
    "C30_degenerate_tubes",
    "C30_absorbed_neutron",
    "C30_reference_is_start_refuted"
   ],
   "note": ""
  },
  {
   "property": "C31",
   "status": "proved",
   "theorems": [
    "C31_merged_events",
    "C31_weight_per_sample",
    "C31_crash_keeps_inputs",
    "C31_mismatch",
    "C31_directory_with_blank",
    "C31_every_directory_refuted",
    "C31_existing_output_kept_refuted"
   ],
   "note": ""
  },
  {
   "property": "C32",
   "status": "proved",
   "theorems": [
    "C32_crossings",
    "C32_monitor",
    "C32_one_bin",
    "C32_batches_add_up",
    "C32_bad_monitors"
   ],
   "note": ""
  },
  {
   "property": "C33",
   "status": "proved",
   "theorems": [
    "C33_events",
    "C33_pixel",
    "C33_documented_relation_refuted",
    "C33_batch_without_hits",
    "C33_own_events_refuted",
    "C33_empty_window"
   ],
   "note": ""
  },
  {
   "property": "C34",
   "status": "proved",
   "theorems": [
    "C34_answers_right",
    "C34_exact_for_small_tolerance"
   ],
   "note": "real arithmetic; Reflection is not supported by any of the visitors and is left out"
  },
  {
   "property": "C35",
   "status": "proved",
   "theorems": [
    "C35_sorted",
    "C35_reported_on_border",
    "C35_cone_reported",
    "C35_none_missed",
    "C35_sphere",
    "C35_cylinder",
    "C35_box",
    "C35_rays_through_seen_refuted",
    "C35_cone_on_border_refuted"
   ],
   "note": "findings: rays through box edges are missed (C35_rays_through_seen_refuted), flat cones report false hits near the apex (C35_cone_on_border_refuted); completeness is not claimed for pyramids and cones"
  },
  {
   "property": "C36",
   "status": "proved",
   "theorems": [
    "C36_when_defined",
    "C36_contains",
    "C36_smallest",
    "C36_rotated",
    "C36_rotated_contained_refuted",
    "C36_negative_scale_refuted"
   ],
   "note": "findings: rotated shapes stick out of their box, negative scales give an empty one (refuted theorems)"
  },
  {
   "property": "C37",
   "status": "proved",
   "theorems": [
    "C37_transmitted",
    "C37_absorbed",
    "C37_handed_to_kernel",
    "C37_balance",
    "C37_scattered",
    "C37_scattered_any_weights",
    "C37_mean_unique",
    "C37_all_at_once",
    "C37_all_at_once_handed",
    "C37_zero_weight_never_chosen_refuted",
    "C37_all_at_once_same_refuted"
   ],
   "note": "Means are Riemann integrals over the two random numbers; doubles are reals. Refuted parts: zero weight selected by the random number 1; place of absorption in interactM."
  },
  {
   "property": "C38",
   "status": "proved",
   "theorems": [
    "C38_attenuation",
    "C38_end_point",
    "C38_regular_rays",
    "C38_time_unique",
    "C38_composite",
    "C38_composite_as_computed",
    "C38_composite_displaced_refuted",
    "C38_nested_refuted"
   ],
   "note": "Refuted parts: composite with displaced elements, nested composites."
  },
  {
   "property": "C39",
   "status": "proved",
   "theorems": [
    "C39_constructor",
    "C39_constructor_fails",
    "C39_selects",
    "C39_zero_weight_not_selected",
    "C39_probability",
    "C39_scatter_unbiased",
    "C39_absorb_unbiased",
    "C39_positive_weights",
    "C39_orientation",
    "C39_coefficients",
    "C39_zero_weight_last_refuted",
    "C39_rendered_zero_weight_refuted",
    "C39_absorbed_weight_refuted"
   ],
   "note": "Means are Riemann integrals over the random number; unbiasedness assumes kernels whose outgoing weight is proportional to the incoming one. Refuted parts: zero weight selected by the random number 1, zero weight from Python, absorbed weight."
  },
  {
   "property": "C40",
   "status": "proved",
   "theorems": [
    "C40_SQE",
    "C40_SQE_focusing",
    "C40_SQ",
    "C40_near_axis",
    "C40_SQE_unbiased",
    "C40_SQE_focusing_unbiased",
    "C40_SQ_unbiased",
    "C40_no_scatter_refuted",
    "C40_constant_E",
    "C40_constant_E_unbiased",
    "C40_constant_QE",
    "C40_constant_vQE",
    "C40_SvQ",
    "C40_incoherent_elastic",
    "C40_incoherent_elastic_unbiased",
    "C40_E_Q",
    "C40_E_Q_mean",
    "C40_E_Q_unbiased",
    "C40_E_Q_unbiased_refuted",
    "C40_E_Q_near_axis_refuted",
    "C40_broadened",
    "C40_broadened_mean",
    "C40_base"
   ],
   "note": "Riemann integrals over the random numbers (meanN). Exact transfers for S(Q,E), S(Q), E(Q) and incoherent elastic kernels assume a direction off the z axis (off_axis), as their basis is not orthonormal near it; C40_near_axis bounds the error of S(Q,E). Mean of the broadened kernel for zero width only. Refuted parts: refused neutrons keep their weight, bias of the E(Q) loop, E(Q) near the axis."
  },
  {
   "property": "C41",
   "status": "proved",
   "theorems": [
    "C41_line_interpolates",
    "C41_line_domain",
    "C41_line_step_zero",
    "C41_line_between",
    "C41_line_steep",
    "C41_line_affine",
    "C41_line_last_tick_refuted",
    "C41_cell_interpolates",
    "C41_cell_domain",
    "C41_cell_moved",
    "C41_cell_between",
    "C41_cell_range",
    "C41_cell_multilinear",
    "C41_cell_steep",
    "C41_cell_last_tick_refuted",
    "C41_nearest_picks",
    "C41_nearest_domain",
    "C41_nearest_refuted"
   ],
   "note": "Real arithmetic for doubles; counts of cells from one on; the shape check of the one-dimensional constructor cannot fail. Refuted parts: the last tick."
  },
  {
   "property": "C42",
   "status": "proved",
   "theorems": [
    "C42_reduced",
    "C42_periodic",
    "C42_made_iff",
    "C42_made_counts",
    "C42_made_energy",
    "C42_made_bounds",
    "C42_made_polarization",
    "C42_made_continuous",
    "C42_continuous_refuted"
   ],
   "note": "Real arithmetic; numpy.linalg.inv modelled as exact inverse, LinAlgError (a ValueError) for a flat cell. Refuted part: continuity across the zone boundary without repeating data."
  },
  {
   "property": "C43",
   "status": "proved",
   "theorems": [
    "C43_write_E",
    "C43_write_Q",
    "C43_write_Sqe",
    "C43_write_Omega2",
    "C43_write_Pol",
    "C43_write_DOS",
    "C43_read_E",
    "C43_read_Q",
    "C43_read_Sqe",
    "C43_read_Omega2",
    "C43_read_Pol",
    "C43_read_DOS",
    "C43_back_E",
    "C43_back_Q",
    "C43_back_Sqe",
    "C43_back_Omega2",
    "C43_back_Pol",
    "C43_back_DOS",
    "C43_dos_kept",
    "C43_dos_mev",
    "C43_dos_flat_refuted",
    "C43_interrupted",
    "C43_kind_refuted",
    "C43_rewrite_refuted",
    "C43_sqe",
    "C43_dispersion"
   ],
   "note": "Doubles are 64-bit words; where DOS.py computes with them they are reals and the conversions are arguments. Arrays of other number types, complex arrays with more than five axes and Qgridinfo (which executes its file) are left out. The statements that fail are the theorems named _refuted, proved for every array."
  },
  {
   "property": "C44",
   "status": "proved",
   "theorems": [
    "C44_physics",
    "C44_inverse",
    "C44_commute",
    "C44_languages",
    "C44_monitor",
    "C44_wavelength_refuted",
    "C44_mcstas",
    "C44_mcstas_refuted"
   ],
   "note": "Doubles are reals; a negative argument of sqrt gives nan (None). Refuted parts: exact wavelength, McStas constants."
  },
  {
   "property": "C45",
   "status": "proved",
   "theorems": [
    "C45_orbit",
    "C45_orbit_large_refuted",
    "C45_lengths",
    "C45_single",
    "C45_single_orthogonal",
    "C45_single_oblique_refuted",
    "C45_powder",
    "C45_powder_complete",
    "C45_powder_octant_refuted",
    "C45_transposed",
    "C45_equal_length_refuted",
    "C45_hexagonal_refuted",
    "C45_laz",
    "C45_laz_upper"
   ],
   "note": "The structure is what the code uses of the diffpy object: recbase, the matrices of the operations (integers), and per atom occupancy, scattering length, B factor and place. That the matrices act on fractional coordinates is diffpy's convention. The statements that fail are the theorems named _refuted."
  },
  {
   "property": "C46",
   "status": "proved",
   "theorems": [
    "C46_back_in_directory",
    "C46_one_directory",
    "C46_nested"
   ],
   "note": ""
  },
  {
   "property": "C47",
   "status": "proved",
   "theorems": [
    "C47_single_rank",
    "C47_every_rank_ends",
    "C47_without_overwriting",
    "C47_all_ranks_start_refuted",
    "C47_overwriting_keeps_data_refuted",
    "C47_overwriting_all_start_refuted"
   ],
   "note": "races shown for every number of ranks >= 2 by the two _refuted theorems"
  },
  {
   "property": "C48",
   "status": "proved",
   "theorems": [
    "C48_white_space",
    "C48_documented_forms",
    "C48_round_trip",
    "C48_accepted_text",
    "C48_rejected",
    "C48_malformed_rejected_refuted"
   ],
   "note": "missing closing parenthesis accepted: C48_malformed_rejected_refuted"
  },
  {
   "property": "C49",
   "status": "proved",
   "theorems": [
    "C49_with_separator",
    "C49_without_separator",
    "C49_argument_name"
   ],
   "note": ""
  },
  {
   "property": "C50",
   "status": "proved",
   "theorems": [
    "C50_one_phonon",
    "C50_one_phonon_integral",
    "C50_negative_refuted",
    "C50_next_order",
    "C50_next_order_sizes",
    "C50_truncation_refuted",
    "C50_orders",
    "C50_sqe",
    "C50_sqe_rows",
    "C50_sqe_exists",
    "C50_no_orders",
    "C50_origin",
    "C50_uneven_refuted"
   ],
   "note": "Real arithmetic; arrays with nan or inf are one value. Refuted parts as in the statement."
  },
  {
   "property": "C52",
   "status": "proved",
   "theorems": [
    "C52_every_event_in_its_cell",
    "C52_event_outside"
   ],
   "note": ""
  },
  {
   "property": "C51",
   "status": "proved",
   "theorems": [
    "C51_write_count",
    "C51_dump_count",
    "C51_storage_count",
    "C51_header_count_refuted"
   ],
   "note": ""
  },
  {
   "property": "C53",
   "status": "proved",
   "theorems": [
    "C53_roundtrip",
    "C53_file",
    "C53_import",
    "C53_export",
    "C53_particle_kind_refuted",
    "C53_unpolarised_refuted"
   ],
   "note": "Assumes the MCPL library returns what was written (it stores directions and weights with less precision). A neutron at rest is written with a nan direction (Example)."
  },
  {
   "property": "C54",
   "status": "proved",
   "theorems": [
    "C54_made_iff",
    "C54_rejected",
    "C54_process_ends",
    "C54_nan_iff",
    "C54_few_refuted",
    "C54_value",
    "C54_outside",
    "C54_last_refuted",
    "C54_total",
    "C54_integral",
    "C54_normalised_refuted",
    "C54_scale",
    "C54_start",
    "C54_start_exact",
    "C54_histogram",
    "C54_uneven_refuted"
   ],
   "note": "Real arithmetic. The vector of data is read when it already exists (the code reads it through a reference). Refuted parts as in the statement."
  },
  {
   "property": "C55",
   "status": "proved",
   "theorems": [
    "C55_factor",
    "C55_factor_balance",
    "C55_factor_cold",
    "C55_factor_zero_refuted",
    "C55_scatter",
    "C55_mean",
    "C55_detailed_balance",
    "C55_detailed_balance_refuted",
    "C55_focusing",
    "C55_focusing_gain_refuted",
    "C55_defaults",
    "C55_coefficients",
    "C55_recoil_refuted"
   ],
   "note": "The density of states and the Debye-Waller exponent are arbitrary functions. Random numbers in [0,1]. Means as iterated Riemann integrals."
  },
  {
   "property": "C56",
   "status": "proved",
   "theorems": [
    "C56_exponent",
    "C56_sum",
    "C56_sum_gap",
    "C56_gap_refuted",
    "C56_few_refuted",
    "C56_converges_refuted"
   ],
   "note": "Real arithmetic; the logarithmic divergence is proved for every density of states the library makes from data with first datum 0 and second positive."
  },
  {
   "property": "C57",
   "status": "proved",
   "theorems": [
    "C57_rotate",
    "C57_made",
    "C57_coefficients",
    "C57_python",
    "C57_refused",
    "C57_empty_refuted",
    "C57_scatters",
    "C57_mean",
    "C57_total",
    "C57_forward_refuted",
    "C57_focus_kept",
    "C57_focus_memory_refuted",
    "C57_focus_weight_refuted"
   ],
   "note": "Holds per event and on average without focusing; refuted where the code deviates: empty list, azimuth near forward/backward direction, weight under focusing, focusing switched off by one neutron. With widths only the single event is stated, not the mean."
  },
  {
   "property": "C58",
   "status": "proved",
   "theorems": [
    "C58_lattice",
    "C58_perpendicular",
    "C58_made",
    "C58_scatters",
    "C58_total",
    "C58_memory",
    "C58_absorption",
    "C58_origin",
    "C58_origin_refuted",
    "C58_lost_refuted",
    "C58_wide_refuted"
   ],
   "note": "All for the kernel made by the Python factory and any later use of it. Outside the stated range of mosaic and spread: refuted with witnesses. The mean is over the choice of the reflection for given normal deviates; the deviates' density is matched pointwise."
  },
  {
   "property": "C59",
   "status": "proved",
   "theorems": [
    "C59_first_hit",
    "C59_one_element",
    "C59_plain_bodies",
    "C59_hollow_bodies",
    "C59_any_shapes_refuted"
   ],
   "note": "The hypotheses of C59_first_hit are discharged for plain and hollow bodies by C59_plain_bodies and C59_hollow_bodies; cones and pyramids are not covered. The statement that fails is the theorem named _refuted."
  },
  {
   "property": "C60",
   "status": "proved",
   "theorems": [
    "C60_reports",
    "C60_found",
    "C60_rays",
    "C60_contained_refuted",
    "C60_places_ignored_refuted",
    "C60_overlap_where_placed_refuted"
   ],
   "note": "The random numbers are arguments. The statements that fail are the theorems named _refuted."
  },
  {
   "property": "C61",
   "status": "proved",
   "theorems": [
    "C61_no_gain",
    "C61_absorbers",
    "C61_linear",
    "C61_straight",
    "C61_leaves",
    "C61_plain_frames",
    "C61_absorber",
    "C61_nested_refuted",
    "C61_linear_refuted"
   ],
   "note": "Elements are any functions of the state of the generator and the event. That events leave the frame is proved for frames whose crossings with the line are found (C61_plain_frames) and lines along which what is ahead is not thin. The statements that fail are the theorems named _refuted."
  },
  {
   "property": "C62",
   "status": "proved",
   "theorems": [
    "C62_factor",
    "C62_straight",
    "C62_not_moving",
    "C62_one_body",
    "C62_absorbed"
   ],
   "note": "The recursion is bounded by an argument; running out of it is an error value. That a single event always leaves the frame is not claimed."
  },
  {
   "property": "C63",
   "status": "proved",
   "theorems": [
    "C63_lau",
    "C63_duplicate",
    "C63_create_lau",
    "C63_remark_after_row_refuted",
    "C63_last_comment_refuted"
   ],
   "note": "float() of a word, the printing of floats and the lattice of diffpy are arguments; the theorem on create_lau supposes that printed numbers are words without # that float() reads back, for the numbers printed. The statements that fail are the theorems named _refuted."
  },
  {
   "property": "C64",
   "status": "proved",
   "theorems": [
    "C64_laz",
    "C64_missing_sigma",
    "C64_duplicate"
   ],
   "note": "float() of a word and the lattice of diffpy are arguments. That recbase has to be used by rows is C45 (C45_laz)."
  },
  {
   "property": "C65",
   "status": "proved",
   "theorems": [
    "C65_zridd_finds",
    "C65_zridd_answer",
    "C65_zridd_root",
    "C65_zridd_line",
    "C65_zridd_accuracy",
    "C65_accuracy_refuted",
    "C65_find_roots",
    "C65_all_roots_refuted",
    "C65_once_refuted"
   ],
   "note": "Over real numbers: the equality of floating point numbers that ends the iteration early is equality of reals. What fails are the theorems named _refuted."
  },
  {
   "property": "C66",
   "status": "proved",
   "theorems": [
    "C66_hits",
    "C66_directions",
    "C66_mean",
    "C66_mean_angle",
    "C66_narrow",
    "C66_uniform_refuted",
    "C66_isotropic"
   ],
   "note": "random01 gives real numbers in [0,1]; means are integrals over them. What fails are the theorems named _refuted; C66_narrow gives the extent."
  },
  {
   "property": "C67",
   "status": "proved",
   "theorems": [
    "C67_scatter",
    "C67_coefficient",
    "C67_mean",
    "C67_absorption",
    "C67_normalised_refuted"
   ],
   "note": "random01 gives real numbers; the case q = 0 (nan) is met for u1 = 1 only, which random01 does not give. max_angle 90 is left out because tan is undefined there (in the code a large number)."
  },
  {
   "property": "C68",
   "status": "proved",
   "theorems": [
    "C68_arrives",
    "C68_weight",
    "C68_coefficients",
    "C68_start_refuted",
    "C68_late_refuted"
   ],
   "note": "The nan and inf of divisions by zero are None in the model."
  },
  {
   "property": "C69",
   "status": "proved",
   "theorems": [
    "C69_state",
    "C69_jacobian",
    "C69_flat",
    "C69_amplitudes_ignored",
    "C69_structure_refuted",
    "C69_gives_up",
    "C69_target_refuted",
    "C69_retries",
    "C69_no_branch",
    "C69_coefficients"
   ],
   "note": "Dispersions are total functions (not those that throw outside their grid); polarisations of length zero and massless atoms give nan and are left out of the weight. What fails are the theorems named _refuted, and C69_amplitudes_ignored, C69_retries, C69_no_branch."
  },
  {
   "property": "C70",
   "status": "proved",
   "theorems": [
    "C70_state",
    "C70_reachable",
    "C70_energy_refuted",
    "C70_uninitialised",
    "C70_twice_refuted",
    "C70_coefficients"
   ],
   "note": "As C69. The loop over wave vectors takes its random numbers from a list; OutOfFuel when the list is at its end, which the hypothesis on the outcome excludes. pi is the constant of the code."
  },
  {
   "property": "C71",
   "status": "proved",
   "theorems": [
    "C71_accepts",
    "C71_body",
    "C71_located",
    "C71_units",
    "C71_plain",
    "C71_locate_refuted",
    "C71_axis_refuted",
    "C71_scientist_moves",
    "C71_scientist"
   ],
   "note": "The convention of `turns` is the active rotation x, then y, then z about the axes of the body, as in C13. Strings and other objects as sizes are one value Other. What fails are the theorems named _refuted."
  },
  {
   "property": "C72",
   "status": "proved",
   "theorems": [
    "C72_accepts",
    "C72_composite",
    "C72_consistent",
    "C72_own_shape",
    "C72_kept",
    "C72_late_refuted",
    "C72_twice_refuted",
    "C72_scientist_refuted"
   ],
   "note": "Elements are scatterers with a shape or copies; composites within composites are left out (their placement in the C++ engine is C59 to C62). What fails are the theorems named _refuted."
  },
  {
   "property": "C73",
   "status": "proved",
   "theorems": [
    "C73_states",
    "C73_conserved",
    "C73_mean",
    "C73_slope",
    "C73_slope_used",
    "C73_flat",
    "C73_twice_refuted",
    "C73_out_of_reach",
    "C73_dropped_refuted",
    "C73_coefficients"
   ],
   "note": "A weight that would be infinite or nan is an error value of the model. The dispersion and the strength throw nothing. What fails are the theorems named _refuted."
  },
  {
   "property": "C74",
   "status": "proved",
   "theorems": [
    "C74_even",
    "C74_listed",
    "C74_outward",
    "C74_no_blade",
    "C74_no_listed_blade",
    "C74_blade_hit",
    "C74_listed_blade_hit",
    "C74_mean",
    "C74_unordered",
    "C74_new",
    "C74_behind_refuted",
    "C74_back_refuted"
   ],
   "note": "A spacing of 0, which gives nan in numpy, is an error value of the model. What fails are the theorems named _refuted."
  },
  {
   "property": "C75",
   "status": "proved",
   "theorems": [
    "C75_point",
    "C75_area",
    "C75_uniform",
    "C75_spread",
    "C75_nan_refuted",
    "C75_width",
    "C75_pyre",
    "C75_three",
    "C75_cone_accepts",
    "C75_cone",
    "C75_cone_all"
   ],
   "note": "Velocities of nan are None. The normal numbers are arbitrary: that they are normal is numpy's affair. What fails is the theorem named _refuted."
  },
  {
   "property": "C76",
   "status": "proved",
   "theorems": [
    "C76_inverse_velocity",
    "C76_curve_accepted",
    "C76_curve",
    "C76_helium",
    "C76_pixel",
    "C76_mean",
    "C76_miss",
    "C76_isotropic",
    "C76_cap",
    "C76_zero_refuted"
   ],
   "note": "The pixel is seen through scatter of a scatterer standing alone (the model of C62). Failed asserts end the program. What fails is the theorem named _refuted."
  },
  {
   "property": "C77",
   "status": "proved",
   "theorems": [
    "C77_rotate",
    "C77_frames",
    "C77_circle",
    "C77_circle_mean",
    "C77_rect",
    "C77_rect_mean",
    "C77_rect_special",
    "C77_angular",
    "C77_angular_refuted"
   ],
   "note": "Random numbers are reals in [0,1). Values read before they are set are an error value. What fails is the theorem named _refuted."
  },
  {
   "property": "C78",
   "status": "proved",
   "theorems": [
    "C78_box",
    "C78_box_edge_refuted",
    "C78_sphere",
    "C78_cylinder",
    "C78_parallel",
    "C78_parallel_refuted"
   ],
   "note": "Bodies are those of C34 (solid, core). What fails are the theorems named _refuted."
  },
  {
   "property": "C79",
   "status": "proved",
   "theorems": [
    "C79_index",
    "C79_set",
    "C79_two_indices",
    "C79_two_indices_outside",
    "C79_two_indices_nearest",
    "C79_stat",
    "C79_monotonic_refuted",
    "C79_value",
    "C79_value_nearest",
    "C79_value_outside",
    "C79_last_refuted",
    "C79_even_refuted",
    "C79_rebin",
    "C79_falling_refuted"
   ],
   "note": "Doubles are reals; a read outside the data or of a variable that was not set is an error value. What fails are the theorems named _refuted."
  },
  {
   "property": "C80",
   "status": "proved",
   "theorems": [
    "C80_edges",
    "C80_range",
    "C80_negative_refuted",
    "C80_absorbing",
    "C80_estimated",
    "C80_zero_refuted",
    "C80_table",
    "C80_table_limit",
    "C80_table_refuted"
   ],
   "note": "Doubles are reals. What fails are the theorems named _refuted."
  },
  {
   "property": "C81",
   "status": "proved",
   "theorems": [
    "C81_linear",
    "C81_quadratic",
    "C81_quadratic_first_refuted",
    "C81_quadratic_range_refuted",
    "C81_integral",
    "C81_integral_line",
    "C81_integral_refuted",
    "C81_energy",
    "C81_energy_range",
    "C81_energy_limits",
    "C81_table_inside",
    "C81_time",
    "C81_time_limit_refuted",
    "C81_zero",
    "C81_zero_refuted",
    "C81_first_bin_refuted"
   ],
   "note": "Doubles are reals; reads and writes outside arrays are an error value, loops that need not end take fuel. What fails are the theorems named _refuted."
  },
  {
   "property": "C82",
   "status": "proved",
   "theorems": [
    "C82_stream",
    "C82_default",
    "C82_same_seed",
    "C82_different_seeds",
    "C82_not_zero",
    "C82_array",
    "C82_array_empty_refuted",
    "C82_conversions"
   ],
   "note": "unsigned long has 64 bits; conversions to double are reals. Period and equidistribution are not treated."
  },
  {
   "property": "C83",
   "status": "proved",
   "theorems": [
    "C83_stream",
    "C83_seed",
    "C83_warmup_refuted"
   ],
   "note": "Sums of int that overflow wrap around. What fails is the theorem named _refuted."
  },
  {
   "property": "C84",
   "status": "proved",
   "theorems": [
    "C84_engine",
    "C84_unique",
    "C84_single_coefficient_refuted",
    "C84_sqe_attributes",
    "C84_vector_units"
   ],
   "note": "Reading of units, of numbers, of orientations and of files are arguments of the model; arithmetic is real. Elements for phonon kernels, shapes and absorption calculators in the file are not modelled. What fails is the theorem named _refuted."
  },
  {
   "property": "C85",
   "status": "proved",
   "theorems": [
    "C85_last_kernel",
    "C85_no_kernel",
    "C85_empty_setting",
    "C85_container_attributes",
    "C85_weight_positive"
   ],
   "note": "As for C84."
  },
  {
   "property": "C86",
   "status": "proved",
   "theorems": [
    "C86_uniform",
    "C86_accepted",
    "C86_only_uniform_refuted",
    "C86_normalized"
   ],
   "note": "Rounding is not modelled: in floating point the truncated quotients could differ. Look-up in the grids is done by an external library. What fails is the theorem named _refuted."
  },
  {
   "property": "C87",
   "status": "proved",
   "theorems": [
    "C87_prop_dt",
    "C87_plane",
    "C87_forward_refuted",
    "C87_plane_gravity",
    "C87_plane_gravity_along",
    "C87_falls_back_refuted",
    "C87_plane_x"
   ],
   "note": "Real arithmetic. That the component carries on after an absorption in these functions is part of the model of every component. What fails is the theorem named _refuted."
  },
  {
   "property": "C88",
   "status": "proved",
   "theorems": [
    "C88_slit_init",
    "C88_slit",
    "C88_slit_gravity",
    "C88_beamstop",
    "C88_beamstop_parallel_refuted",
    "C88_collimator",
    "C88_divergence",
    "C88_collimator_parallel",
    "C88_transmission_refuted"
   ],
   "note": "Real arithmetic; inf and nan are an error value. The collimator is treated for neutrons with vz > 0 and vz = 0; gravity in it is modelled but not treated. What fails is the theorem named _refuted."
  },
  {
   "property": "C89",
   "status": "proved",
   "theorems": [
    "C89_disk",
    "C89_window",
    "C89_first",
    "C89_older",
    "C89_older_first_refuted",
    "C89_older_height_refuted"
   ],
   "note": "Real arithmetic; random numbers are arguments; the window theorems are for jitter 0, and for DiskChopper without beamstop in the slit. What fails is the theorem named _refuted."
  },
  {
   "property": "C90",
   "status": "proved",
   "theorems": [
    "C90_area",
    "C90_monitor",
    "C90_energy",
    "C90_energy_runs",
    "C90_energy_width",
    "C90_wavelength",
    "C90_wavelength_runs",
    "C90_time",
    "C90_time_runs",
    "C90_time2",
    "C90_time_axis",
    "C90_time_axis_refuted",
    "C90_strips",
    "C90_image",
    "C90_energy_image",
    "C90_parallel_refuted"
   ],
   "note": "Real arithmetic, gravity off. For E_monitor, L_monitor and TOF_monitor it is proved that a run does not fail when the channel number fits an int; without that the conversion is undefined in C++. What fails is the theorem named _refuted."
  },
  {
   "property": "C91",
   "status": "proved",
   "theorems": [
    "C91_guide",
    "C91_straight",
    "C91_reflectivity",
    "C91_reflectivity_refuted",
    "C91_ends_refuted",
    "C91_backward"
   ],
   "note": "Real arithmetic, gravity off. That the loop ends is proved for straight guides only; for tapered guides the theorem is about runs that end. The table of reflectivities is an arbitrary function. What fails is the theorem named _refuted."
  },
  {
   "property": "C92",
   "status": "proved",
   "theorems": [
    "C92_simple_init",
    "C92_simple",
    "C92_simple_wavelength",
    "C92_simple_gauss",
    "C92_simple_gauss_refuted",
    "C92_simple_band_refuted",
    "C92_simple_weight_refuted",
    "C92_simple_no_target",
    "C92_moderator",
    "C92_moderator_init",
    "C92_moderator_time_refuted",
    "C92_div",
    "C92_div_gauss",
    "C92_div_stops",
    "C92_maxwell",
    "C92_maxwell_mean",
    "C92_maxwell_share",
    "C92_maxwell_sign_refuted"
   ],
   "note": "Real arithmetic; random numbers are arguments (randnorm as an arbitrary number). Averages are integrals over one random number. What fails is in the theorems named _refuted and in C92_simple_no_target and C92_div_stops."
  },
  {
   "property": "C93",
   "status": "proved",
   "theorems": [
    "C93_mirror",
    "C93_other",
    "C93_weight",
    "C93_reflectivity",
    "C93_formula"
   ],
   "note": "Real arithmetic; the random number is an argument and the table of reflectivities an arbitrary function."
  },
  {
   "property": "C94",
   "status": "proved",
   "theorems": [
    "C94_v_apertures",
    "C94_v_still",
    "C94_v_share",
    "C94_selector",
    "C94_selector_mean",
    "C94_agree",
    "C94_sense_refuted",
    "C94_selector_no_gap"
   ],
   "note": "Real arithmetic, without gravity; the random number is an argument. The failing agreement is C94_sense_refuted."
  },
  {
   "property": "C95",
   "status": "proved",
   "theorems": [
    "C95_divergence",
    "C95_hdiv",
    "C95_divlambda",
    "C95_divpos",
    "C95_toflambda",
    "C95_empty",
    "C95_empty_lambda"
   ],
   "note": "Real arithmetic, without gravity. Rounding could put a value just below the end of a window into a cell outside of the array; that is not covered."
  },
  {
   "property": "C96",
   "status": "proved",
   "theorems": [
    "C96_multiply",
    "C96_set",
    "C96_add_refuted",
    "C96_outside",
    "C96_options",
    "C96_wavector_refuted",
    "C96_init"
   ],
   "note": "Real arithmetic, without gravity. pow of a negative number is an error in the model. The failing parts are C96_add_refuted and C96_wavector_refuted."
  },
  {
   "property": "C97",
   "status": "proved",
   "theorems": [
    "C97_tofcyl",
    "C97_tofcyl_lost",
    "C97_tofcyl_back_refuted",
    "C97_psdcyl",
    "C97_psdcyl_refuted",
    "C97_all"
   ],
   "note": "Real arithmetic, without gravity. The failing parts are C97_tofcyl_back_refuted and C97_psdcyl_refuted."
  },
  {
   "property": "C98",
   "status": "proved",
   "theorems": [
    "C98_cell",
    "C98_total",
    "C98_latitude_refuted"
   ],
   "note": "Real arithmetic, without gravity. The failing part is C98_latitude_refuted."
  }
 ]
}