c("C01", "proved", ["C01_rotation_matrix"], "exact arithmetic")
c("C02", "proved", ["C02_rotations_compose"], "exact arithmetic")
c("C03", "proved", ["C03_rotation_about_line"], "exact arithmetic")
c("C04", "proved", ["C04_reverse_undoes_rotation", "C04_reverse_undoes_rotation_refuted"],
  "proved for every point whose side of the water is kept; the unrestricted claim is refuted by a witness")
c("C05", "proved", ["C05_mirror_image", "C05_mirror_image_on_plane", "C05_mirror_image_refuted"],
  "off the plane proved; on the plane characterised exactly")
c("C06", "proved", ["C06_rigid"], "exact arithmetic")
c("C07", "proved", ["C07_centreline", "C07_columns", "C07_centreline_refuted"],
  "the documented claim is false (leeway applied in the wrong sense): it holds exactly for multiples of 180 degrees")
c("C08", "proved", ["C08_parameters_any_number_system", "C08_parameters_validated"],
  "rejection for every number system; acceptance never fails later in exact arithmetic")
c("C09", "proved", ["C09_camber_line", "C09_camber_line_refuted"], "p = 0 is refuted by a witness")
c("C10", "proved", ["C10_slope_is_derivative"], "")
c("C11", "proved", ["C11_thickness"], "")
c("C12", "proved", ["C12_discrete_segment"], "")
c("C13", "proved", ["C13_airfoil_mesh"], "one chord per section; grids with at least one cell each way")
c("C14", "proved", ["C14_panels_tile_the_mesh"], "every number system")
c("C15", "proved", ["C15_panel_area", "C15_panel_area_refuted"], "general convex panels refuted by a witness")
c("C16", "proved", ["C16_wing_mesh"], "")
c("C29", "proved", ["C29_biot_savart"], "against the Biot-Savart integral (Coquelicot's Riemann integral) and the closed form")
c("C30", "proved", ["C30_vortex_line_finite"], "definedness on checked real numbers (CNum.v), bound on reals")
c("C31", "proved", ["C31_split_segment"], "points outside the cores of the three segments")
c("C32", "proved", ["C32_frame_independence"], "")
c("C33", "proved", ["C33_semi_infinite_limit"], "evaluation point outside the core of the origin")
c("C34", "proved", ["C34_horseshoe_is_a_ring_closed_at_infinity"], "points off the wake lines and outside the core of the trailing corners")
c("C35", "proved", ["C35_wake_singularity", "C35_finite_everywhere_refuted"], "finiteness everywhere refuted; singular set characterised exactly on checked real numbers")
c("C17", "proved", ["C17_mirror_image", "C17_mirror_image_refuted"], "sails above the water with positive camber position; refuted when the camber position varies along the span")
c("C18", "proved", ["C18_luff_fixed"], "includes that the self check passes")
c("C19", "proved", ["C19_sections_rotated", "C19_modes_have_no_effect", "C19_documented_modes_refuted"], "documented constant modes refuted")
c("C20", "proved", ["C20_sail_set_layout"], "for every number system")
c("C21", "proved", ["C21_main_mounting"], "")
c("C22", "proved", ["C22_jib_mounting", "C22_jib_tack", "C22_parallel_refuted"], "refuted when the mast top is forward of the forestay's foot")
c("C36", "proved", ["C36_lattice_never_fails", "C36_lattice_geometry"], "sets of sails built by SailGeometry")
c("C37", "proved", ["C37_watertight", "C37_trailing_edge"], "")
c("C38", "proved", ["C38_wing_lattice"], "")
c("C39", "proved", ["C39_linear_solver"], "Gaussian elimination with partial pivoting on exact reals in place of LAPACK")
c("C43", "proved", ["C43_net_circulation", "C43_telescope"], "")
c("C40", "proved", ["C40_no_flux", "C40_flux_check"], "exact reals")
c("C41", "proved", ["C41_mirror_solution", "C41_sail_sets"], "the sails of C41_sail_sets have one camber position, as in C17")
c("C42", "proved", ["C42_inflow", "C42_speed", "C42_density"], "")
c("C44", "proved", ["C44_force_splits", "C44_other_names", "C44_vlm"], "")
c("C45", "proved", ["C45_pressure", "C45_pressure_coefficient", "C45_vlm"], "")
c("C59", "proved", ["C59_frame_independence", "C59_turned"], "any rotation and translation for a given inflow; end to end for turns about the vertical axis")
c("C60", "proved", ["C60_failures", "C60_complete_results"], "winds with complete data; exact reals")
c("C23", "proved", ["C23_piecewise_linear", "C23_between_neighbours", "C23_through_the_data", "C23_affine", "C23_ends", "C23_rejections"], "")
c("C24", "proved", ["C24_mirrored", "C24_failures", "C24_sections"], "the spline routine is an arbitrary function; its number of values is not assumed")
c("C25", "proved", ["C25_direction", "C25_flat", "C25_logarithmic", "C25_exponential", "C25_exponential_defined", "C25_report_refuted"], "heights from the reference water level upwards for the exponential profile, NaN below; also refuted: the report at the reference height")
c("C26", "proved", ["C26_apparent_wind", "C26_mirror"], "")
c("C27", "proved", ["C27_angle", "C27_other_side_wrong", "C27_all_angles_refuted"], "")
c("C28", "proved", ["C28_logarithmic", "C28_complete", "C28_exponential_unchecked", "C28_unknown_name", "C28_flat_over_checked", "C28_failures", "C28_missing_data_refuted", "C28_unknown_name_refuted"], "the check is refuted for exponential and unknown profiles")
c("C46", "proved", ["C46_moments", "C46_shift"], "")
c("C47", "proved", ["C47_recovers", "C47_any_moment", "C47_reported"], "")
c("C48", "proved", ["C48_totals", "C48_run"], "")
c("C49", "proved", ["C49_total_moment", "C49_refuted"], "independence refuted; the dependence is given exactly")
c("C50", "proved", ["C50_rows", "C50_lengths"], "")
c("C51", "proved", ["C51_girths", "C51_empty"], "")
c("C57", "proved", ["C57_finite_sail_angle", "C57_refuted"], "refuted for negative x components; the offset is exactly 180 degrees")
c("C61", "proved", ["C61_sail_rows", "C61_overall_rows", "C61_same_name"], "")
c("C52", "proved", ["C52_sections", "C52_between", "C52_uniform", "C52_plot_data"], "")
c("C53", "proved", ["C53_swapped", "C53_run", "C53_refuted"], "the swap holds for every input; refuted on a hand-made result")
c("C58", "proved", ["C58_coefficients", "C58_slope", "C58_lift"], "")
c("C54", "proved", ["C54_used", "C54_shadowed", "C54_dvars", "C54_status", "C54_refuted"], "both parts of the claim are refuted; no module named variables is loaded, built in or frozen beforehand")
c("C55", "proved", ["C55_checked", "C55_chords_unchecked", "C55_chords_fail", "C55_unknown_name", "C55_missing_sail", "C55_default_twist", "C55_defaults", "C55_base_needed", "C55_twist_values", "C55_default_sails", "C55_refuted"], "complete checking is refuted; what is and is not checked is given exactly")
c("C62", "proved", ["C62_labels", "C62_right", "C62_main_alone", "C62_third_sail", "C62_refuted"], "refuted for a main sail on its own; right otherwise")
c("C67", "proved", ["C67_run"], "exact reals")
c("C63", "proved", ["C63_lines", "C63_ends", "C63_sides", "C63_refuted"], "the symmetry about the centre plane is refuted, and how far it fails is given exactly; the rest is proved")
c("C64", "proved", ["C64_polygons", "C64_flat_panels"], "")
c("C65", "proved", ["C65_arrows", "C65_run", "C65_other_numbers"], "")
c("C66", "proved", ["C66_arrows", "C66_run"], "exact reals")
c("C56", "proved", ["C56_symmetry", "C56_no_lift", "C56_refuted"], "the coefficient of the z force is always 0 for horizontal inflow; refuted on a wing with positive force across the wind and positive theoretical lift coefficient; exact reals")
c("C68", "proved", ["C68_solver", "C68_run", "C68_camber_rejected"], "linear interpolation (for a spline the reflection of the data is a fact about the oracle); exact reals")
c('C69', "proved", ['C69_origin_axis', 'C69_line_along_x'], "scipy's Rotation.from_rotvec is modelled as quaternion and matrix, without its Taylor polynomial for small angles; undefined = division by zero on checked reals")
c('C70', "proved", ['C70_files', 'C70_nothing_on_error', 'C70_case_file', 'C70_stopped', 'C70_case_copy_refuted'], 'The copy clause is false of the code and refuted by concrete cases; the other clauses hold.')
c('C71', "proved", ['C71_exponential', 'C71_reference_speed', 'C71_placeholder', 'C71_profiles_refuted'], 'Exact rows proved; that every profile is reported is refuted.')
c('C72', "proved", ['C72_components', 'C72_summary', 'C72_all_labelled', 'C72_integrals', 'C72_inlet', 'C72_own_label_refuted'], 'The claim that every row has the colour of its own label is refuted for the inlet sheet.')
c('C73', "proved", ['C73_workbook'], '')
c('C74', "proved", ['C74_columns', 'C74_rows'], '')
c('C75', "proved", ['C75_colours', 'C75_sailopt', 'C75_refuted', 'C75_rings'], 'C75_refuted: the SailOpt figure does not show the circulation its title names.')
c('C76', "proved", ['C76_picture', 'C76_parts', 'C76_tall', 'C76_low', 'C76_induced', 'C76_refuted'], 'C76_refuted: the axes do not enclose the sails.')
c('C77', "proved", ['C77_solver', 'C77_run', 'C77_plots', 'C77_refuted'], 'C77_solver: similarity of the solved lattice; C77_run: of a complete run with all its results, for a model scale k <= 1 (the check that the twist leaves the luff in place has an absolute tolerance); C77_plots: of the section plots; C77_refuted: the absolute core size breaks it for very small sails.')
c('C78', "proved", ['C78_similar', 'C78_refuted'], 'C78_similar: every result of the similar wing; the sign convention of the circulation does not matter for the forces. C78_refuted: the wing of half the size has the same pressures and force coefficients, and four times the Cp.')
c('C79', "proved", ['C79_scipy', 'C79_detects', 'C79_passes', 'C79_other_angle'], 'exact arithmetic; scipy modelled as in its source, with the polynomial for small angles')
c('C80', "proved", ['C80_accepted', 'C80_result', 'C80_defined', 'C80_forces_defined_refuted'], 'The model is polymorphic in its numbers: the same definitions run on checked real numbers (CNum.v), on which an undefined operation gives the undefined number. inf and NaN are not distinguished. C80_forces_defined_refuted shows two panels on which Vlm returns with an undefined force.')
c('C81', "proved", ['C81_defined', 'C81_errors', 'C81_luff', 'C81_mounting'], 'On the instance of checked numbers (CNum): None is an undefined value and comparisons with it are false. Mounting points that are themselves undefined are not inputs here.')
c('C82', "proved", ['C82_returned', 'C82_defined', 'C82_tables'], 'On checked numbers (CNum); inf and NaN are not distinguished, so the quotient Vy/0 counts as undefined although numpy continues with inf and returns the right angle of 90 degrees for it.')
c('C83', "proved", ['C83_data', 'C83_plots'], 'On checked numbers (CNum), for real results of the solver (C82 says when all of them are defined).')
c('C84', "proved", ['C84_solver', 'C84_flat', 'C84_head_to_wind', 'C84_reported', 'C84_defined_refuted'], 'Full statement proved; the definedness of all results is refuted by a flat rectangular main sail head to wind.')
c('C85', "proved", ['C85_spline', 'C85_refused', 'C85_through_the_data', 'C85_cubic_data', 'C85_linear', 'C85_between_neighbours_refuted'], 'Full statement proved for the spline of exact arithmetic; betweenness is refuted. Trusted: that FITPACK (splrep with s=0, splev) computes the not-a-knot spline.')
c('C86', "proved", ['C86_resampled', 'C86_run', 'C86_constant', 'C86_shipped', 'C86_range_exit', 'C86_camber_refuted', 'C86_few_girths', 'C86_homogeneous'], 'Full statement proved; the acceptance of all cambers within the range is refuted. C86_range_exit and C86_few_girths are stated for a main sail alone.')
c('C87', "proved", ['C87_run', 'C87_stronger', 'C87_same_apparent', 'C87_at_rest', 'C87_at_rest_refuted'], 'Full statement proved.')
c('C88', "proved", ['C88_run', 'C88_spline', 'C88_shipped'], 'Full statement proved. Without an even camber position the mirrored sail is not the mirror image of the sail (C17_mirror_image_refuted).')
c('C89', "proved", ['C89_error', 'C89_constant', 'C89_ends', 'C89_margin', 'C89_range_exit_refuted'], 'The bounds and the margin are proved. That in-range data are always accepted is false in double precision: C89_range_exit_refuted.')
c('C90', "proved", ['C90_program', 'C90_spline', 'C90_shipped'], 'Full statement proved.')
c('C91', "proved", ['C91_matrix', 'C91_rotate', 'C91_vector', 'C91_reverse'], 'Proved for the model evaluated in double arithmetic, operation by operation.')
c('C92', "proved", ['C92_line', 'C92_points', 'C92_sail'], 'Proved for the model evaluated in double arithmetic, operation by operation, in the order numpy multi_dot chooses (matrices applied one after the other to up to four points, multiplied with each other first for more); a luff nearly along the x axis (l < L/1000) is not covered.')
c('C93', "proved", ['C93_finite', 'C93_segment', 'C93_ring', 'C93_half_line', 'C93_horseshoe', 'C93_wake_refuted'], 'Proved for the model evaluated in double arithmetic, operation by operation; that the half line is finite everywhere off the wake is refuted by a witness.')
c('C94', "proved", ['C94_flux', 'C94_accepts', 'C94_refuses', 'C94_scale_refuted'], 'Proved for the model evaluated in double arithmetic; that the scaling law C42 carries over to doubles is refuted by a witness, which uses the order of elimination of the model of np.linalg.solve.')
c('C95', "proved", ['C95_solver', 'C95_sail_sets', 'C95_results', 'C95_order', 'C95_refusals'], 'In exact real arithmetic; the case is a run with two different sails.')
c('C96', "proved", ['C96_test', 'C96_areas', 'C96_run', 'C96_wake_refuted'], 'The claim that forces are finite as well is false: C96_wake_refuted. It needs a library with cos 0 = 1 and sin 0 = 0.')
c('C97', "proved", ['C97_force', 'C97_pressure', 'C97_total', 'C97_moment', 'C97_relative'], 'Relative to the computed velocities and circulations, not to the exact solution of the flow.')
c('C98', "proved", ['C98_accepts', 'C98_drawn', 'C98_order_refuted', 'C98_moments', 'C98_reported'], 'The labels of three permuted axes are refuted. What matplotlib does with a missing colour is not modelled.')
c('C99', "proved", ['C99_coefficient', 'C99_no_flux', 'C99_velocity'], 'Relative to the computed corners, normals and circulations; their distance from those of exact arithmetic depends on the conditioning of the system and is not claimed.')
c('C100', "proved", ['C100_segment', 'C100_half_line', 'C100_ring', 'C100_horseshoe', 'C100_flow', 'C100_border_refuted'], 'In exact real arithmetic. Refuted on the border of a core: C100_border_refuted.')
c('C101', "proved", ['C101_circulations', 'C101_velocity'], 'Relative to the computed corners and normals; beta is a hypothesis on the exact lattice, shown to be 5 for the pair of panels of the case.')
c('C102', "proved", ['C102_points', 'C102_area', 'C102_normal', 'C102_lattice', 'C102_run', 'C102_sails', 'C102_usual'], 'The bound of a normal degrades as h, twice the area of the panel, gets small; panels of zero area have no normal.')
c('C103', "proved", ['C103_force', 'C103_total', 'C103_moment'], 'Relative to the computed lattice (its own error is C102) and the computed inflow; beta and the sizes are hypotheses, shown for the pair of panels of the case.')
c('C104', "proved", ['C104_apparent', 'C104_inlet', 'C104_angle', 'C104_report'], 'The accuracy of the logarithm, the power and the arctangent is a hypothesis on the library, as that of sine and cosine in C91; the apparent wind angle is bounded for winds from ahead of the beam.')
c('C105', "proved", ['C105_height', 'C105_inflow', 'C105_run'], 'Relative to the accuracy of the library assumed in C104; the distance d of the panels of a sail is bounded by C92.')
