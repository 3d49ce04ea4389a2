{
 "claims": [
  {
   "property": "C01",
   "status": "proved",
   "theorems": [
    "C01_total_least_squares",
    "C01_unique_when_gap"
   ],
   "note": ""
  },
  {
   "property": "C02",
   "status": "proved",
   "theorems": [
    "C02_residual_sum",
    "C02_residual_vectors"
   ],
   "note": ""
  },
  {
   "property": "C03",
   "status": "proved",
   "theorems": [
    "C03_translation",
    "C03_observables"
   ],
   "note": ""
  },
  {
   "property": "C04",
   "status": "proved",
   "theorems": [
    "C04_centering",
    "C04_differences"
   ],
   "note": ""
  },
  {
   "property": "C05",
   "status": "proved",
   "theorems": [
    "C05_too_few_points"
   ],
   "note": ""
  },
  {
   "property": "C06",
   "status": "proved",
   "theorems": [
    "C06_errors",
    "C06_row_order"
   ],
   "note": ""
  },
  {
   "property": "C07",
   "status": "proved",
   "theorems": [
    "C07_errors",
    "C07_rotation"
   ],
   "note": ""
  },
  {
   "property": "C08",
   "status": "proved",
   "theorems": [
    "C08_errors",
    "C08_scale"
   ],
   "note": ""
  },
  {
   "property": "C09",
   "status": "proved",
   "theorems": [
    "C09_normal",
    "C09_normal_unweighted"
   ],
   "note": ""
  },
  {
   "property": "C10",
   "status": "proved",
   "theorems": [
    "C10_dip_dr"
   ],
   "note": ""
  },
  {
   "property": "C11",
   "status": "proved",
   "theorems": [
    "C11_strike_dip_range"
   ],
   "note": ""
  },
  {
   "property": "C12",
   "status": "proved",
   "theorems": [
    "C12_strike_dip_plane",
    "C12_spec_sanity"
   ],
   "note": ""
  },
  {
   "property": "C13",
   "status": "proved",
   "theorems": [
    "C13_sign_independent",
    "C13_any_two_decompositions",
    "C13_negated_axis"
   ],
   "note": ""
  },
  {
   "property": "C14",
   "status": "proved",
   "theorems": [
    "C14_dip_direction"
   ],
   "note": ""
  },
  {
   "property": "C15",
   "status": "proved",
   "theorems": [
    "C15_gradient"
   ],
   "note": ""
  },
  {
   "property": "C16",
   "status": "proved",
   "theorems": [
    "C16_rake",
    "C16_rake_sign"
   ],
   "note": ""
  },
  {
   "property": "C17",
   "status": "proved",
   "theorems": [
    "C17_despinning"
   ],
   "note": ""
  },
  {
   "property": "C18",
   "status": "proved",
   "theorems": [
    "C18_eigenvalues_are_variances"
   ],
   "note": ""
  },
  {
   "property": "C19",
   "status": "proved",
   "theorems": [
    "C19_greatest_variance"
   ],
   "note": ""
  },
  {
   "property": "C20",
   "status": "proved",
   "theorems": [
    "C20_reconstruction",
    "C20_reloaded"
   ],
   "note": ""
  },
  {
   "property": "C21",
   "status": "proved",
   "theorems": [
    "C21_errors",
    "C21_saved_axes_round_trip"
   ],
   "note": ""
  },
  {
   "property": "C22",
   "status": "proved",
   "theorems": [
    "C22_exact_planes_do_not_reload"
   ],
   "note": ""
  },
  {
   "property": "C23",
   "status": "proved",
   "theorems": [
    "C23_uniform_weights"
   ],
   "note": ""
  },
  {
   "property": "C24",
   "status": "proved",
   "theorems": [
    "C24_weighted",
    "C24_reconstruction_refuted",
    "C24_sorted_refuted"
   ],
   "note": ""
  },
  {
   "property": "C25",
   "status": "proved",
   "theorems": [
    "C25_calls_keep_geometry"
   ],
   "note": ""
  },
  {
   "property": "C26",
   "status": "proved",
   "theorems": [
    "C26_identifier",
    "C26_other_calls"
   ],
   "note": ""
  },
  {
   "property": "C27",
   "status": "proved",
   "theorems": [
    "C27_hyperbolic_axes"
   ],
   "note": ""
  },
  {
   "property": "C28",
   "status": "proved",
   "theorems": [
    "C28_angular_errors_range",
    "C28_monotone",
    "C28_fit"
   ],
   "note": ""
  },
  {
   "property": "C29",
   "status": "proved",
   "theorems": [
    "C29_ordered_when_well_defined"
   ],
   "note": ""
  },
  {
   "property": "C30",
   "status": "proved",
   "theorems": [
    "C30_exact_ordering",
    "C30_order_refuted"
   ],
   "note": ""
  },
  {
   "property": "C31",
   "status": "proved",
   "theorems": [
    "C31_confidence_monotone"
   ],
   "note": ""
  },
  {
   "property": "C32",
   "status": "proved",
   "theorems": [
    "C32_folding",
    "C32_smaller_error_refuted"
   ],
   "note": ""
  },
  {
   "property": "C33",
   "status": "proved",
   "theorems": [
    "C33_duality",
    "C33_complementary"
   ],
   "note": ""
  },
  {
   "property": "C34",
   "status": "proved",
   "theorems": [
    "C34_noise_covariance",
    "C34_decreases_with_n",
    "C34_errors_decrease",
    "C34_mean"
   ],
   "note": ""
  },
  {
   "property": "C35",
   "status": "proved",
   "theorems": [
    "C35_dof_only_in_statistic",
    "C35_noise_ignores_dof"
   ],
   "note": ""
  },
  {
   "property": "C36",
   "status": "proved",
   "theorems": [
    "C36_explained_variance"
   ],
   "note": ""
  },
  {
   "property": "C37",
   "status": "proved",
   "theorems": [
    "C37_explained_variance_bounds"
   ],
   "note": ""
  },
  {
   "property": "C38",
   "status": "proved",
   "theorems": [
    "C38_reconstructed_axes",
    "C38_round_trip"
   ],
   "note": ""
  },
  {
   "property": "C39",
   "status": "proved",
   "theorems": [
    "C39_plane_recovered"
   ],
   "note": ""
  },
  {
   "property": "C40",
   "status": "proved",
   "theorems": [
    "C40_axes_recovered_iff",
    "C40_one_sign_only",
    "C40_mirrored_refuted"
   ],
   "note": ""
  },
  {
   "property": "C41",
   "status": "proved",
   "theorems": [
    "C41_reports_arguments"
   ],
   "note": ""
  },
  {
   "property": "C42",
   "status": "proved",
   "theorems": [
    "C42_errors_swapped",
    "C42_values_differ"
   ],
   "note": ""
  },
  {
   "property": "C43",
   "status": "proved",
   "theorems": [
    "C43_offsets",
    "C43_centre"
   ],
   "note": ""
  },
  {
   "property": "C44",
   "status": "proved",
   "theorems": [
    "C44_parallel_planes",
    "C44_same_plane"
   ],
   "note": ""
  },
  {
   "property": "C45",
   "status": "proved",
   "theorems": [
    "C45_result",
    "C45_links",
    "C45_fits"
   ],
   "note": ""
  },
  {
   "property": "C46",
   "status": "proved",
   "theorems": [
    "C46_nothing_dropped",
    "C46_unknown",
    "C46_only_unknown"
   ],
   "note": ""
  },
  {
   "property": "C47",
   "status": "proved",
   "theorems": [
    "C47_untouched"
   ],
   "note": ""
  },
  {
   "property": "C48",
   "status": "proved",
   "theorems": [
    "C48_only_parents",
    "C48_witness"
   ],
   "note": ""
  },
  {
   "property": "C49",
   "status": "proved",
   "theorems": [
    "C49_rejected",
    "C49_copies_not_rejected",
    "C49_two_calls",
    "C49_one_call"
   ],
   "note": ""
  },
  {
   "property": "C50",
   "status": "proved",
   "theorems": [
    "C50_failed_group",
    "C50_failed_fit",
    "C50_failed_disable"
   ],
   "note": ""
  },
  {
   "property": "C51",
   "status": "proved",
   "theorems": [
    "C51_no_group_members",
    "C51_never_nested"
   ],
   "note": ""
  },
  {
   "property": "C52",
   "status": "proved",
   "theorems": [
    "C52_disabled"
   ],
   "note": ""
  },
  {
   "property": "C53",
   "status": "proved",
   "theorems": [
    "C53_precedence"
   ],
   "note": ""
  },
  {
   "property": "C54",
   "status": "proved",
   "theorems": [
    "C54_agree",
    "C54_level",
    "C54_unknown_sheet"
   ],
   "note": ""
  },
  {
   "property": "C55",
   "status": "proved",
   "theorems": [
    "C55_swapped",
    "C55_differ"
   ],
   "note": ""
  },
  {
   "property": "C56",
   "status": "proved",
   "theorems": [
    "C56_agree"
   ],
   "note": ""
  },
  {
   "property": "C57",
   "status": "proved",
   "theorems": [
    "C57_sheets",
    "C57_antipodal",
    "C57_count"
   ],
   "note": ""
  },
  {
   "property": "C58",
   "status": "proved",
   "theorems": [
    "C58_dual"
   ],
   "note": ""
  },
  {
   "property": "C59",
   "status": "proved",
   "theorems": [
    "C59_level_ignored",
    "C59_monotone"
   ],
   "note": ""
  },
  {
   "property": "C60",
   "status": "proved",
   "theorems": [
    "C60_translate",
    "C60_center"
   ],
   "note": ""
  },
  {
   "property": "C61",
   "status": "proved",
   "theorems": [
    "C61_transform",
    "C61_compose",
    "C61_identity"
   ],
   "note": ""
  },
  {
   "property": "C62",
   "status": "proved",
   "theorems": [
    "C62_center"
   ],
   "note": ""
  },
  {
   "property": "C63",
   "status": "proved",
   "theorems": [
    "C63_pole_polar",
    "C63_reciprocal"
   ],
   "note": ""
  },
  {
   "property": "C64",
   "status": "proved",
   "theorems": [
    "C64_tangent_planes",
    "C64_involution",
    "C64_contravariant"
   ],
   "note": ""
  },
  {
   "property": "C65",
   "status": "proved",
   "theorems": [
    "C65_value",
    "C65_default"
   ],
   "note": ""
  },
  {
   "property": "C66",
   "status": "proved",
   "theorems": [
    "C66_tangent",
    "C66_projection"
   ],
   "note": ""
  },
  {
   "property": "C67",
   "status": "proved",
   "theorems": [
    "C67_perpendicular",
    "C67_vector"
   ],
   "note": ""
  },
  {
   "property": "C68",
   "status": "proved",
   "theorems": [
    "C68_only_on_axes",
    "C68_vector"
   ],
   "note": ""
  },
  {
   "property": "C69",
   "status": "proved",
   "theorems": [
    "C69_offset"
   ],
   "note": ""
  },
  {
   "property": "C70",
   "status": "proved",
   "theorems": [
    "C70_elliptical"
   ],
   "note": ""
  },
  {
   "property": "C71",
   "status": "proved",
   "theorems": [
    "C71_parity",
    "C71_planar"
   ],
   "note": ""
  },
  {
   "property": "C72",
   "status": "proved",
   "theorems": [
    "C72_squares",
    "C72_axes"
   ],
   "note": ""
  },
  {
   "property": "C73",
   "status": "proved",
   "theorems": [
    "C73_rows",
    "C73_sorted",
    "C73_plane",
    "C73_cyclic_refuted"
   ],
   "note": ""
  },
  {
   "property": "C74",
   "status": "proved",
   "theorems": [
    "C74_band",
    "C74_hyperboloid",
    "C74_oblique_refuted",
    "C74_narrowest"
   ],
   "note": ""
  },
  {
   "property": "C75",
   "status": "proved",
   "theorems": [
    "C75_asymptotes"
   ],
   "note": ""
  },
  {
   "property": "C76",
   "status": "proved",
   "theorems": [
    "C76_rotation",
    "C76_angle"
   ],
   "note": ""
  },
  {
   "property": "C77",
   "status": "proved",
   "theorems": [
    "C77_sign_lost",
    "C77_even"
   ],
   "note": ""
  },
  {
   "property": "C78",
   "status": "proved",
   "theorems": [
    "C78_defined",
    "C78_least_squares",
    "C78_residuals"
   ],
   "note": ""
  },
  {
   "property": "C79",
   "status": "proved",
   "theorems": [
    "C79_coefficients",
    "C79_angles",
    "C79_methods_agree"
   ],
   "note": ""
  },
  {
   "property": "C80",
   "status": "proved",
   "theorems": [
    "C80_columns",
    "C80_exact_plane_lost"
   ],
   "note": ""
  },
  {
   "property": "C81",
   "status": "proved",
   "theorems": [
    "C81_round_trip",
    "C81_axes",
    "C81_cartesian"
   ],
   "note": ""
  },
  {
   "property": "C82",
   "status": "proved",
   "theorems": [
    "C82_swap",
    "C82_layout",
    "C82_three_points_refuted"
   ],
   "note": ""
  },
  {
   "property": "C83",
   "status": "proved",
   "theorems": [
    "C83_defined",
    "C83_not_rotation",
    "C83_not_mapping"
   ],
   "note": ""
  },
  {
   "property": "C84",
   "status": "proved",
   "theorems": [
    "C84_clean"
   ],
   "note": ""
  },
  {
   "property": "C85",
   "status": "proved",
   "theorems": [
    "C85_bounding_box"
   ],
   "note": ""
  },
  {
   "property": "C86",
   "status": "proved",
   "theorems": [
    "C86_extract",
    "C86_no_duplicates"
   ],
   "note": ""
  },
  {
   "property": "C87",
   "status": "proved",
   "theorems": [
    "C87_text",
    "C87_element",
    "C87_script_end_refuted",
    "C87_placeholder_refuted",
    "C87_string",
    "C87_entries",
    "C87_json"
   ],
   "note": ""
  },
  {
   "property": "C88",
   "status": "proved",
   "theorems": [
    "C88_split",
    "C88_nothing_lost"
   ],
   "note": ""
  },
  {
   "property": "C89",
   "status": "proved",
   "theorems": [
    "C89_cached_U_is_stale"
   ],
   "note": ""
  },
  {
   "property": "C90",
   "status": "proved",
   "theorems": [
    "C90_sampling_ordered",
    "C90_francq_ordered"
   ],
   "note": ""
  },
  {
   "property": "C91",
   "status": "proved",
   "theorems": [
    "C91_babamoradi_level"
   ],
   "note": ""
  },
  {
   "property": "C92",
   "status": "proved",
   "theorems": [
    "C92_left_handed"
   ],
   "note": ""
  },
  {
   "property": "C93",
   "status": "proved",
   "theorems": [
    "C93_link_kept_iff",
    "C93_relink_refuted"
   ],
   "note": ""
  },
  {
   "property": "C94",
   "status": "proved",
   "theorems": [
    "C94_export_fails_iff",
    "C94_after_failed_group",
    "C94_unexportable_state"
   ],
   "note": ""
  },
  {
   "property": "C95",
   "status": "proved",
   "theorems": [
    "C95_references_closed"
   ],
   "note": ""
  },
  {
   "property": "C96",
   "status": "proved",
   "theorems": [
    "C96_constant_ellipse",
    "C96_too_few"
   ],
   "note": ""
  },
  {
   "property": "C97",
   "status": "proved",
   "theorems": [
    "C97_girdle_width"
   ],
   "note": ""
  },
  {
   "property": "C98",
   "status": "proved",
   "theorems": [
    "C98_girdle",
    "C98_pole",
    "C98_raw_inconsistent"
   ],
   "note": ""
  },
  {
   "property": "C99",
   "status": "proved",
   "theorems": [
    "C99_turns_axes",
    "C99_girdle_shifted"
   ],
   "note": ""
  },
  {
   "property": "C100",
   "status": "proved",
   "theorems": [
    "C100_polar_iff"
   ],
   "note": ""
  },
  {
   "property": "C101",
   "status": "proved",
   "theorems": [
    "C101_coords",
    "C101_default",
    "C101_too_few"
   ],
   "note": ""
  },
  {
   "property": "C102",
   "status": "proved",
   "theorems": [
    "C102_sphere",
    "C102_order"
   ],
   "note": ""
  },
  {
   "property": "C103",
   "status": "proved",
   "theorems": [
    "C103_plane_slice"
   ],
   "note": ""
  },
  {
   "property": "C104",
   "status": "proved",
   "theorems": [
    "C104_needs_axes",
    "C104_values"
   ],
   "note": ""
  },
  {
   "property": "C105",
   "status": "proved",
   "theorems": [
    "C105_zero_axis"
   ],
   "note": ""
  },
  {
   "property": "C106",
   "status": "proved",
   "theorems": [
    "C106_off_hyperbola",
    "C106_mean_twice",
    "C106_last_point"
   ],
   "note": ""
  },
  {
   "property": "C107",
   "status": "proved",
   "theorems": [
    "C107_covariance",
    "C107_standard_errors"
   ],
   "note": ""
  },
  {
   "property": "C108",
   "status": "proved",
   "theorems": [
    "C108_rotated_covariance",
    "C108_errors_defined",
    "C108_errors_value",
    "C108_rotated_covariance_refuted"
   ],
   "note": ""
  },
  {
   "property": "C109",
   "status": "proved",
   "theorems": [
    "C109_handedness",
    "C109_matrix_differs"
   ],
   "note": ""
  },
  {
   "property": "C110",
   "status": "proved",
   "theorems": [
    "C110_round_trip",
    "C110_bounds",
    "C110_reciprocal"
   ],
   "note": ""
  },
  {
   "property": "C111",
   "status": "proved",
   "theorems": [
    "C111_contour",
    "C111_full_turn",
    "C111_rotate"
   ],
   "note": ""
  },
  {
   "property": "C112",
   "status": "proved",
   "theorems": [
    "C112_positions"
   ],
   "note": ""
  },
  {
   "property": "C113",
   "status": "proved",
   "theorems": [
    "C113_bilinear",
    "C113_plane",
    "C113_window",
    "C113_interior",
    "C113_edge_refuted"
   ],
   "note": ""
  },
  {
   "property": "C114",
   "status": "proved",
   "theorems": [
    "C114_round_trip",
    "C114_single_row_refuted",
    "C114_several_refuted"
   ],
   "note": ""
  },
  {
   "property": "C115",
   "status": "proved",
   "theorems": [
    "C115_on_ellipse",
    "C115_count",
    "C115_points",
    "C115_symmetric",
    "C115_ring_refuted"
   ],
   "note": ""
  },
  {
   "property": "C116",
   "status": "proved",
   "theorems": [
    "C116_girdle",
    "C116_count",
    "C116_negative_lengths",
    "C116_unknown_sheet",
    "C116_combined"
   ],
   "note": ""
  },
  {
   "property": "C117",
   "status": "proved",
   "theorems": [
    "C117_band",
    "C117_zero_error"
   ],
   "note": ""
  },
  {
   "property": "C118",
   "status": "proved",
   "theorems": [
    "C118_polar",
    "C118_tangent",
    "C118_finite",
    "C118_count"
   ],
   "note": ""
  },
  {
   "property": "C119",
   "status": "proved",
   "theorems": [
    "C119_deconvolve",
    "C119_convolve",
    "C119_transposed",
    "C119_inverse_refuted"
   ],
   "note": ""
  },
  {
   "property": "C120",
   "status": "proved",
   "theorems": [
    "C120_clone",
    "C120_levels",
    "C120_single",
    "C120_zero_refuted",
    "C120_zero_drawn"
   ],
   "note": ""
  },
  {
   "property": "C121",
   "status": "proved",
   "theorems": [
    "C121_average",
    "C121_needs_global",
    "C121_extrema"
   ],
   "note": ""
  },
  {
   "property": "C122",
   "status": "proved",
   "theorems": [
    "C122_surface",
    "C122_twice_refuted",
    "C122_axes",
    "C122_no_axes"
   ],
   "note": ""
  },
  {
   "property": "C123",
   "status": "proved",
   "theorems": [
    "C123_fix_angle"
   ],
   "note": ""
  },
  {
   "property": "C124",
   "status": "proved",
   "theorems": [
    "C124_dip",
    "C124_apparent"
   ],
   "note": ""
  },
  {
   "property": "C125",
   "status": "proved",
   "theorems": [
    "C125_trace"
   ],
   "note": ""
  },
  {
   "property": "C126",
   "status": "proved",
   "theorems": [
    "C126_cone",
    "C126_bounds",
    "C126_section",
    "C126_section_refuted",
    "C126_outline"
   ],
   "note": ""
  },
  {
   "property": "C127",
   "status": "proved",
   "theorems": [
    "C127_rows",
    "C127_plotted"
   ],
   "note": ""
  },
  {
   "property": "C128",
   "status": "proved",
   "theorems": [
    "C128_finalize",
    "C128_changes",
    "C128_outside"
   ],
   "note": ""
  },
  {
   "property": "C129",
   "status": "proved",
   "theorems": [
    "C129_defined",
    "C129_round_trip",
    "C129_ordered"
   ],
   "note": ""
  },
  {
   "property": "C130",
   "status": "proved",
   "theorems": [
    "C130_toggle",
    "C130_twice"
   ],
   "note": ""
  },
  {
   "property": "C131",
   "status": "proved",
   "theorems": [
    "C131_group",
    "C131_single",
    "C131_list",
    "C131_lit"
   ],
   "note": ""
  },
  {
   "property": "C132",
   "status": "proved",
   "theorems": [
    "C132_drag",
    "C132_idle",
    "C132_released",
    "C132_latitude"
   ],
   "note": ""
  },
  {
   "property": "C133",
   "status": "proved",
   "theorems": [
    "C133_opacity",
    "C133_ellipse",
    "C133_negative_refuted"
   ],
   "note": ""
  },
  {
   "property": "C134",
   "status": "proved",
   "theorems": [
    "C134_label",
    "C134_north_refuted"
   ],
   "note": ""
  },
  {
   "property": "C135",
   "status": "proved",
   "theorems": [
    "C135_view",
    "C135_horizontal_refuted",
    "C135_sideways"
   ],
   "note": ""
  },
  {
   "property": "C136",
   "status": "proved",
   "theorems": [
    "C136_ellipsoid",
    "C136_level_shrinks"
   ],
   "note": ""
  },
  {
   "property": "C137",
   "status": "proved",
   "theorems": [
    "C137_raises"
   ],
   "note": ""
  },
  {
   "property": "C138",
   "status": "proved",
   "theorems": [
    "C138_hyperboloid",
    "C138_error_surface_refuted"
   ],
   "note": ""
  },
  {
   "property": "C139",
   "status": "proved",
   "theorems": [
    "C139_cone",
    "C139_asymptotic_iff",
    "C139_test_refuted",
    "C139_centre"
   ],
   "note": ""
  },
  {
   "property": "C140",
   "status": "proved",
   "theorems": [
    "C140_tls",
    "C140_vertical"
   ],
   "note": ""
  },
  {
   "property": "C141",
   "status": "proved",
   "theorems": [
    "C141_angle",
    "C141_sign_refuted"
   ],
   "note": ""
  },
  {
   "property": "C142",
   "status": "proved",
   "theorems": [
    "C142_zero",
    "C142_self",
    "C142_self_refuted",
    "C142_symmetric_refuted",
    "C142_scale",
    "C142_repeat"
   ],
   "note": ""
  },
  {
   "property": "C143",
   "status": "proved",
   "theorems": [
    "C143_aligned",
    "C143_symmetric_refuted"
   ],
   "note": ""
  },
  {
   "property": "C144",
   "status": "proved",
   "theorems": [
    "C144_hyperbola",
    "C144_ellipse"
   ],
   "note": ""
  },
  {
   "property": "C145",
   "status": "proved",
   "theorems": [
    "C145_apart",
    "C145_odd_refuted",
    "C145_sideways_refuted"
   ],
   "note": ""
  },
  {
   "property": "C146",
   "status": "proved",
   "theorems": [
    "C146_tangent",
    "C146_asymptotes",
    "C146_choices"
   ],
   "note": ""
  },
  {
   "property": "C147",
   "status": "proved",
   "theorems": [
    "C147_hyperbola_foci",
    "C147_ellipse_foci",
    "C147_inverse_hyperbola"
   ],
   "note": ""
  },
  {
   "property": "C148",
   "status": "proved",
   "theorems": [
    "C148_window"
   ],
   "note": ""
  },
  {
   "property": "C149",
   "status": "proved",
   "theorems": [
    "C149_vertex",
    "C149_cone",
    "C149_again",
    "C149_pole",
    "C149_fit"
   ],
   "note": ""
  },
  {
   "property": "C150",
   "status": "proved",
   "theorems": [
    "C150_heights",
    "C150_upside_down_refuted"
   ],
   "note": ""
  },
  {
   "property": "C151",
   "status": "proved",
   "theorems": [
    "C151_thinned",
    "C151_regular"
   ],
   "note": ""
  },
  {
   "property": "C152",
   "status": "proved",
   "theorems": [
    "C152_residual",
    "C152_label_refuted",
    "C152_height"
   ],
   "note": ""
  },
  {
   "property": "C153",
   "status": "proved",
   "theorems": [
    "C153_angle",
    "C153_opening",
    "C153_fit"
   ],
   "note": ""
  },
  {
   "property": "C154",
   "status": "proved",
   "theorems": [
    "C154_long",
    "C154_short_refuted"
   ],
   "note": ""
  },
  {
   "property": "C155",
   "status": "proved",
   "theorems": [
    "C155_first",
    "C155_window_refuted"
   ],
   "note": ""
  },
  {
   "property": "C156",
   "status": "proved",
   "theorems": [
    "C156_band",
    "C156_bottom_refuted",
    "C156_simple",
    "C156_projection",
    "C156_unasserted"
   ],
   "note": ""
  },
  {
   "property": "C157",
   "status": "proved",
   "theorems": [
    "C157_percentile",
    "C157_value",
    "C157_affine",
    "C157_interval"
   ],
   "note": ""
  },
  {
   "property": "C158",
   "status": "proved",
   "theorems": [
    "C158_resampled",
    "C158_interval",
    "C158_mean",
    "C158_noise"
   ],
   "note": ""
  },
  {
   "property": "C159",
   "status": "proved",
   "theorems": [
    "C159_value",
    "C159_axial",
    "C159_peak",
    "C159_pole_iff",
    "C159_pole_refuted"
   ],
   "note": ""
  },
  {
   "property": "C160",
   "status": "proved",
   "theorems": [
    "C160_grid",
    "C160_cover",
    "C160_shapes",
    "C160_grid_refuted"
   ],
   "note": ""
  },
  {
   "property": "C161",
   "status": "proved",
   "theorems": [
    "C161_symmetric",
    "C161_increasing",
    "C161_converges",
    "C161_single",
    "C161_arguments",
    "C161_equal_axes"
   ],
   "note": ""
  },
  {
   "property": "C162",
   "status": "proved",
   "theorems": [
    "C162_vertex",
    "C162_centre",
    "C162_misplaced"
   ],
   "note": ""
  },
  {
   "property": "C163",
   "status": "proved",
   "theorems": [
    "C163_contour",
    "C163_contour_refuted"
   ],
   "note": ""
  },
  {
   "property": "C164",
   "status": "proved",
   "theorems": [
    "C164_figure",
    "C164_spherical",
    "C164_pca"
   ],
   "note": ""
  },
  {
   "property": "C165",
   "status": "proved",
   "theorems": [
    "C165_opacity",
    "C165_defaults",
    "C165_pca",
    "C165_left",
    "C165_never"
   ],
   "note": ""
  },
  {
   "property": "C166",
   "status": "proved",
   "theorems": [
    "C166_pole",
    "C166_noise",
    "C166_fit"
   ],
   "note": ""
  },
  {
   "property": "C167",
   "status": "proved",
   "theorems": [
    "C167_lambert",
    "C167_injective",
    "C167_area",
    "C167_antipode",
    "C167_vector"
   ],
   "note": ""
  },
  {
   "property": "C168",
   "status": "proved",
   "theorems": [
    "C168_mounted",
    "C168_rectangular",
    "C168_clip",
    "C168_zero",
    "C168_never_unclipped",
    "C168_clip_refuted",
    "C168_scale_refuted",
    "C168_getters"
   ],
   "note": ""
  },
  {
   "property": "C169",
   "status": "proved",
   "theorems": [
    "C169_outline",
    "C169_fits",
    "C169_fits_refuted"
   ],
   "note": ""
  },
  {
   "property": "C170",
   "status": "proved",
   "theorems": [
    "C170_vertical",
    "C170_labels",
    "C170_dip",
    "C170_vertical_refuted",
    "C170_sides"
   ],
   "note": ""
  },
  {
   "property": "C171",
   "status": "proved",
   "theorems": [
    "C171_opposite",
    "C171_some_shown"
   ],
   "note": ""
  },
  {
   "property": "C172",
   "status": "proved",
   "theorems": [
    "C172_installed",
    "C172_rotate",
    "C172_center",
    "C172_button_refuted",
    "C172_anchor"
   ],
   "note": ""
  },
  {
   "property": "C173",
   "status": "proved",
   "theorems": [
    "C173_update",
    "C173_always",
    "C173_null_refuted",
    "C173_mount_refuted",
    "C173_center",
    "C173_switches"
   ],
   "note": ""
  },
  {
   "property": "C174",
   "status": "proved",
   "theorems": [
    "C174_settings",
    "C174_max_refuted"
   ],
   "note": ""
  },
  {
   "property": "C175",
   "status": "proved",
   "theorems": [
    "C175_recorded",
    "C175_shown",
    "C175_missing_refuted"
   ],
   "note": ""
  },
  {
   "property": "C176",
   "status": "proved",
   "theorems": [
    "C176_same_cone",
    "C176_nominal",
    "C176_vertical_refuted"
   ],
   "note": ""
  },
  {
   "property": "C177",
   "status": "proved",
   "theorems": [
    "C177_cones",
    "C177_never_equal"
   ],
   "note": ""
  },
  {
   "property": "C178",
   "status": "proved",
   "theorems": [
    "C178_same_cone",
    "C178_layout",
    "C178_traditional_refuted"
   ],
   "note": ""
  },
  {
   "property": "C179",
   "status": "proved",
   "theorems": [
    "C179_deconvolved",
    "C179_degenerate"
   ],
   "note": ""
  },
  {
   "property": "C180",
   "status": "proved",
   "theorems": [
    "C180_fit",
    "C180_missing",
    "C180_reconstructed"
   ],
   "note": ""
  },
  {
   "property": "C181",
   "status": "proved",
   "theorems": [
    "C181_read_back",
    "C181_disc",
    "C181_centre",
    "C181_frame"
   ],
   "note": ""
  },
  {
   "property": "C182",
   "status": "proved",
   "theorems": [
    "C182_places",
    "C182_axes",
    "C182_view"
   ],
   "note": ""
  },
  {
   "property": "C183",
   "status": "proved",
   "theorems": [
    "C183_digitized",
    "C183_trace",
    "C183_where",
    "C183_refuted"
   ],
   "note": ""
  },
  {
   "property": "C184",
   "status": "proved",
   "theorems": [
    "C184_line",
    "C184_polygon"
   ],
   "note": ""
  },
  {
   "property": "C185",
   "status": "proved",
   "theorems": [
    "C185_settings",
    "C185_polygon",
    "C185_refuted",
    "C185_mask"
   ],
   "note": ""
  },
  {
   "property": "C186",
   "status": "proved",
   "theorems": [
    "C186_order",
    "C186_first",
    "C186_steady",
    "C186_refuted"
   ],
   "note": ""
  },
  {
   "property": "C187",
   "status": "proved",
   "theorems": [
    "C187_label",
    "C187_net",
    "C187_net_refuted"
   ],
   "note": ""
  },
  {
   "property": "C188",
   "status": "proved",
   "theorems": [
    "C188_data",
    "C188_drawn",
    "C188_mean_refuted"
   ],
   "note": ""
  },
  {
   "property": "C189",
   "status": "proved",
   "theorems": [
    "C189_lit",
    "C189_left_refuted"
   ],
   "note": ""
  },
  {
   "property": "C190",
   "status": "proved",
   "theorems": [
    "C190_rotated",
    "C190_shuffled",
    "C190_scaled",
    "C190_tie_refuted"
   ],
   "note": ""
  },
  {
   "property": "C191",
   "status": "proved",
   "theorems": [
    "C191_turned",
    "C191_mirrored"
   ],
   "note": ""
  },
  {
   "property": "C192",
   "status": "proved",
   "theorems": [
    "C192_line",
    "C192_plane",
    "C192_axes"
   ],
   "note": ""
  },
  {
   "property": "C193",
   "status": "proved",
   "theorems": [
    "C193_scaled",
    "C193_unit_refuted"
   ],
   "note": ""
  },
  {
   "property": "C194",
   "status": "proved",
   "theorems": [
    "C194_wrong_side",
    "C194_confidence"
   ],
   "note": ""
  },
  {
   "property": "C195",
   "status": "proved",
   "theorems": [
    "C195_known",
    "C195_unknown",
    "C195_reconstructed",
    "C195_level_refuted"
   ],
   "note": ""
  },
  {
   "property": "C196",
   "status": "proved",
   "theorems": [
    "C196_decodes",
    "C196_injective"
   ],
   "note": ""
  },
  {
   "property": "C197",
   "status": "proved",
   "theorems": [
    "C197_agree",
    "C197_distance",
    "C197_level",
    "C197_ellipsoid"
   ],
   "note": ""
  },
  {
   "property": "C198",
   "status": "proved",
   "theorems": [
    "C198_singular",
    "C198_mean"
   ],
   "note": ""
  },
  {
   "property": "C199",
   "status": "proved",
   "theorems": [
    "C199_normal",
    "C199_strike_dip",
    "C199_tie_refuted"
   ],
   "note": ""
  },
  {
   "property": "C200",
   "status": "proved",
   "theorems": [
    "C200_centered",
    "C200_fit",
    "C200_size"
   ],
   "note": ""
  },
  {
   "property": "C201",
   "status": "proved",
   "theorems": [
    "C201_line",
    "C201_residuals",
    "C201_angle",
    "C201_calls",
    "C201_explained",
    "C201_two_points_refuted"
   ],
   "note": ""
  },
  {
   "property": "C202",
   "status": "proved",
   "theorems": [
    "C202_value",
    "C202_distance",
    "C202_sign",
    "C202_positive_refuted"
   ],
   "note": ""
  },
  {
   "property": "C203",
   "status": "proved",
   "theorems": [
    "C203_colours",
    "C203_order",
    "C203_empty",
    "C203_degrees_refuted"
   ],
   "note": ""
  },
  {
   "property": "C204",
   "status": "proved",
   "theorems": [
    "C204_closed",
    "C204_right_angle",
    "C204_bounds",
    "C204_scale"
   ],
   "note": ""
  },
  {
   "property": "C205",
   "status": "proved",
   "theorems": [
    "C205_stable"
   ],
   "note": ""
  },
  {
   "property": "C206",
   "status": "proved",
   "theorems": [
    "C206_unbiased",
    "C206_covariance",
    "C206_best"
   ],
   "note": ""
  },
  {
   "property": "C207",
   "status": "proved",
   "theorems": [
    "C207_polygon",
    "C207_flat",
    "C207_triangle",
    "C207_crossed_refuted",
    "C207_line_valid",
    "C207_line_gaps"
   ],
   "note": ""
  },
  {
   "property": "C208",
   "status": "proved",
   "theorems": [
    "C208_patches",
    "C208_made",
    "C208_raises",
    "C208_colours",
    "C208_outline"
   ],
   "note": ""
  },
  {
   "property": "C209",
   "status": "proved",
   "theorems": [
    "C209_shadow",
    "C209_shift",
    "C209_test_refuted",
    "C209_subtended"
   ],
   "note": ""
  },
  {
   "property": "C210",
   "status": "proved",
   "theorems": [
    "C210_repeated",
    "C210_floor",
    "C210_rate",
    "C210_limit"
   ],
   "note": ""
  },
  {
   "property": "C211",
   "status": "proved",
   "theorems": [
    "C211_three_points",
    "C211_compares",
    "C211_passes",
    "C211_cases",
    "C211_flat",
    "C211_vertical"
   ],
   "note": ""
  },
  {
   "property": "C212",
   "status": "proved",
   "theorems": [
    "C212_average",
    "C212_extremes",
    "C212_noise",
    "C212_along"
   ],
   "note": ""
  },
  {
   "property": "C213",
   "status": "proved",
   "theorems": [
    "C213_lines",
    "C213_extent",
    "C213_points",
    "C213_even",
    "C213_chosen",
    "C213_labels",
    "C213_dips"
   ],
   "note": ""
  },
  {
   "property": "C214",
   "status": "proved",
   "theorems": [
    "C214_points",
    "C214_average",
    "C214_noise",
    "C214_far",
    "C214_random_pca"
   ],
   "note": ""
  },
  {
   "property": "C215",
   "status": "proved",
   "theorems": [
    "C215_products",
    "C215_turned",
    "C215_axis_transform"
   ],
   "note": ""
  },
  {
   "property": "C216",
   "status": "proved",
   "theorems": [
    "C216_value",
    "C216_units",
    "C216_agrees"
   ],
   "note": ""
  },
  {
   "property": "C217",
   "status": "proved",
   "theorems": [
    "C217_kind",
    "C217_viewpoint",
    "C217_axes"
   ],
   "note": ""
  },
  {
   "property": "C218",
   "status": "proved",
   "theorems": [
    "C218_moved",
    "C218_unit"
   ],
   "note": ""
  },
  {
   "property": "C219",
   "status": "proved",
   "theorems": [
    "C219_cut",
    "C219_test"
   ],
   "note": ""
  },
  {
   "property": "C220",
   "status": "proved",
   "theorems": [
    "C220_angle",
    "C220_parallel",
    "C220_report",
    "C220_sign"
   ],
   "note": ""
  },
  {
   "property": "C221",
   "status": "proved",
   "theorems": [
    "C221_values",
    "C221_hovered",
    "C221_all",
    "C221_redrawn",
    "C221_frozen",
    "C221_click",
    "C221_stuck",
    "C221_refuted"
   ],
   "note": ""
  },
  {
   "property": "C222",
   "status": "proved",
   "theorems": [
    "C222_json",
    "C222_distinct",
    "C222_distinct_refuted"
   ],
   "note": ""
  },
  {
   "property": "C223",
   "status": "proved",
   "theorems": [
    "C223_rake",
    "C223_nominal",
    "C223_axes_up",
    "C223_axes_right",
    "C223_axes_pass",
    "C223_fails"
   ],
   "note": ""
  },
  {
   "property": "C224",
   "status": "proved",
   "theorems": [
    "C224_project",
    "C224_compare",
    "C224_linspace",
    "C224_minimum",
    "C224_dual"
   ],
   "note": ""
  },
  {
   "property": "C225",
   "status": "proved",
   "theorems": [
    "C225_girdle",
    "C225_cone",
    "C225_mirrored",
    "C225_left_behind"
   ],
   "note": ""
  },
  {
   "property": "C226",
   "status": "proved",
   "theorems": [
    "C226_layers",
    "C226_again",
    "C226_rectangular",
    "C226_current",
    "C226_vertical"
   ],
   "note": ""
  },
  {
   "property": "C227",
   "status": "proved",
   "theorems": [
    "C227_girdle",
    "C227_cone",
    "C227_caller",
    "C227_reconstructed"
   ],
   "note": ""
  },
  {
   "property": "C228",
   "status": "proved",
   "theorems": [
    "C228_drawn",
    "C228_exact",
    "C228_bootstrap",
    "C228_crossing",
    "C228_units"
   ],
   "note": ""
  },
  {
   "property": "C229",
   "status": "proved",
   "theorems": [
    "C229_single",
    "C229_arrays",
    "C229_quaternion",
    "C229_scale"
   ],
   "note": ""
  },
  {
   "property": "C230",
   "status": "proved",
   "theorems": [
    "C230_more",
    "C230_parts",
    "C230_group",
    "C230_exact",
    "C230_pooled",
    "C230_centre",
    "C230_centre_error",
    "C230_sum_refuted"
   ],
   "note": ""
  },
  {
   "property": "C231",
   "status": "proved",
   "theorems": [
    "C231_turned",
    "C231_dip",
    "C231_vertical",
    "C231_confident"
   ],
   "note": ""
  },
  {
   "property": "C232",
   "status": "proved",
   "theorems": [
    "C232_contraction",
    "C232_leverage"
   ],
   "note": ""
  },
  {
   "property": "C233",
   "status": "proved",
   "theorems": [
    "C233_added",
    "C233_design",
    "C233_errors"
   ],
   "note": ""
  },
  {
   "property": "C234",
   "status": "proved",
   "theorems": [
    "C234_measures",
    "C234_steeper"
   ],
   "note": ""
  },
  {
   "property": "C235",
   "status": "proved",
   "theorems": [
    "C235_affine",
    "C235_dip",
    "C235_exchange_refuted"
   ],
   "note": ""
  },
  {
   "property": "C236",
   "status": "proved",
   "theorems": [
    "C236_repeated"
   ],
   "note": ""
  },
  {
   "property": "C237",
   "status": "proved",
   "theorems": [
    "C237_flat"
   ],
   "note": ""
  },
  {
   "property": "C238",
   "status": "proved",
   "theorems": [
    "C238_hidden",
    "C238_single_group",
    "C238_unique_refuted"
   ],
   "note": ""
  }
 ]
}