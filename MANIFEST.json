{
 "claims": [
  {
   "property": "C01",
   "status": "proved",
   "theorems": [
    "C01_rotation_matrix"
   ],
   "note": "exact arithmetic"
  },
  {
   "property": "C02",
   "status": "proved",
   "theorems": [
    "C02_rotations_compose"
   ],
   "note": "exact arithmetic"
  },
  {
   "property": "C03",
   "status": "proved",
   "theorems": [
    "C03_rotation_about_line"
   ],
   "note": "exact arithmetic"
  },
  {
   "property": "C04",
   "status": "proved",
   "theorems": [
    "C04_reverse_undoes_rotation",
    "C04_reverse_undoes_rotation_refuted"
   ],
   "note": "proved for every point whose side of the water is kept; the unrestricted claim is refuted by a witness"
  },
  {
   "property": "C05",
   "status": "proved",
   "theorems": [
    "C05_mirror_image",
    "C05_mirror_image_on_plane",
    "C05_mirror_image_refuted"
   ],
   "note": "off the plane proved; on the plane characterised exactly"
  },
  {
   "property": "C06",
   "status": "proved",
   "theorems": [
    "C06_rigid"
   ],
   "note": "exact arithmetic"
  },
  {
   "property": "C07",
   "status": "proved",
   "theorems": [
    "C07_centreline",
    "C07_columns",
    "C07_centreline_refuted"
   ],
   "note": "the documented claim is false (leeway applied in the wrong sense): it holds exactly for multiples of 180 degrees"
  },
  {
   "property": "C08",
   "status": "proved",
   "theorems": [
    "C08_parameters_any_number_system",
    "C08_parameters_validated"
   ],
   "note": "rejection for every number system; acceptance never fails later in exact arithmetic"
  },
  {
   "property": "C09",
   "status": "proved",
   "theorems": [
    "C09_camber_line",
    "C09_camber_line_refuted"
   ],
   "note": "p = 0 is refuted by a witness"
  },
  {
   "property": "C10",
   "status": "proved",
   "theorems": [
    "C10_slope_is_derivative"
   ],
   "note": ""
  },
  {
   "property": "C100",
   "status": "proved",
   "theorems": [
    "C100_segment",
    "C100_half_line",
    "C100_ring",
    "C100_horseshoe",
    "C100_flow",
    "C100_border_refuted"
   ],
   "note": "In exact real arithmetic. Refuted on the border of a core: C100_border_refuted."
  },
  {
   "property": "C101",
   "status": "proved",
   "theorems": [
    "C101_circulations",
    "C101_velocity"
   ],
   "note": "Relative to the computed corners and normals; beta is a hypothesis on the exact lattice, shown to be 5 for the pair of panels of the case."
  },
  {
   "property": "C102",
   "status": "proved",
   "theorems": [
    "C102_points",
    "C102_area",
    "C102_normal",
    "C102_lattice",
    "C102_run",
    "C102_sails",
    "C102_usual"
   ],
   "note": "The bound of a normal degrades as h, twice the area of the panel, gets small; panels of zero area have no normal."
  },
  {
   "property": "C103",
   "status": "proved",
   "theorems": [
    "C103_force",
    "C103_total",
    "C103_moment"
   ],
   "note": "Relative to the computed lattice (its own error is C102) and the computed inflow; beta and the sizes are hypotheses, shown for the pair of panels of the case."
  },
  {
   "property": "C104",
   "status": "proved",
   "theorems": [
    "C104_apparent",
    "C104_inlet",
    "C104_angle",
    "C104_report"
   ],
   "note": "The accuracy of the logarithm, the power and the arctangent is a hypothesis on the library, as that of sine and cosine in C91; the apparent wind angle is bounded for winds from ahead of the beam."
  },
  {
   "property": "C105",
   "status": "proved",
   "theorems": [
    "C105_height",
    "C105_inflow",
    "C105_run"
   ],
   "note": "Relative to the accuracy of the library assumed in C104; the distance d of the panels of a sail is bounded by C92."
  },
  {
   "property": "C11",
   "status": "proved",
   "theorems": [
    "C11_thickness"
   ],
   "note": ""
  },
  {
   "property": "C12",
   "status": "proved",
   "theorems": [
    "C12_discrete_segment"
   ],
   "note": ""
  },
  {
   "property": "C13",
   "status": "proved",
   "theorems": [
    "C13_airfoil_mesh"
   ],
   "note": "one chord per section; grids with at least one cell each way"
  },
  {
   "property": "C14",
   "status": "proved",
   "theorems": [
    "C14_panels_tile_the_mesh"
   ],
   "note": "every number system"
  },
  {
   "property": "C15",
   "status": "proved",
   "theorems": [
    "C15_panel_area",
    "C15_panel_area_refuted"
   ],
   "note": "general convex panels refuted by a witness"
  },
  {
   "property": "C16",
   "status": "proved",
   "theorems": [
    "C16_wing_mesh"
   ],
   "note": ""
  },
  {
   "property": "C17",
   "status": "proved",
   "theorems": [
    "C17_mirror_image",
    "C17_mirror_image_refuted"
   ],
   "note": "sails above the water with positive camber position; refuted when the camber position varies along the span"
  },
  {
   "property": "C18",
   "status": "proved",
   "theorems": [
    "C18_luff_fixed"
   ],
   "note": "includes that the self check passes"
  },
  {
   "property": "C19",
   "status": "proved",
   "theorems": [
    "C19_sections_rotated",
    "C19_modes_have_no_effect",
    "C19_documented_modes_refuted"
   ],
   "note": "documented constant modes refuted"
  },
  {
   "property": "C20",
   "status": "proved",
   "theorems": [
    "C20_sail_set_layout"
   ],
   "note": "for every number system"
  },
  {
   "property": "C21",
   "status": "proved",
   "theorems": [
    "C21_main_mounting"
   ],
   "note": ""
  },
  {
   "property": "C22",
   "status": "proved",
   "theorems": [
    "C22_jib_mounting",
    "C22_jib_tack",
    "C22_parallel_refuted"
   ],
   "note": "refuted when the mast top is forward of the forestay's foot"
  },
  {
   "property": "C23",
   "status": "proved",
   "theorems": [
    "C23_piecewise_linear",
    "C23_between_neighbours",
    "C23_through_the_data",
    "C23_affine",
    "C23_ends",
    "C23_rejections"
   ],
   "note": ""
  },
  {
   "property": "C24",
   "status": "proved",
   "theorems": [
    "C24_mirrored",
    "C24_failures",
    "C24_sections"
   ],
   "note": "the spline routine is an arbitrary function; its number of values is not assumed"
  },
  {
   "property": "C25",
   "status": "proved",
   "theorems": [
    "C25_direction",
    "C25_flat",
    "C25_logarithmic",
    "C25_exponential",
    "C25_exponential_defined",
    "C25_report_refuted"
   ],
   "note": "heights from the reference water level upwards for the exponential profile, NaN below; also refuted: the report at the reference height"
  },
  {
   "property": "C26",
   "status": "proved",
   "theorems": [
    "C26_apparent_wind",
    "C26_mirror"
   ],
   "note": ""
  },
  {
   "property": "C27",
   "status": "proved",
   "theorems": [
    "C27_angle",
    "C27_other_side_wrong",
    "C27_all_angles_refuted"
   ],
   "note": ""
  },
  {
   "property": "C28",
   "status": "proved",
   "theorems": [
    "C28_logarithmic",
    "C28_complete",
    "C28_exponential_unchecked",
    "C28_unknown_name",
    "C28_flat_over_checked",
    "C28_failures",
    "C28_missing_data_refuted",
    "C28_unknown_name_refuted"
   ],
   "note": "the check is refuted for exponential and unknown profiles"
  },
  {
   "property": "C29",
   "status": "proved",
   "theorems": [
    "C29_biot_savart"
   ],
   "note": "against the Biot-Savart integral (Coquelicot's Riemann integral) and the closed form"
  },
  {
   "property": "C30",
   "status": "proved",
   "theorems": [
    "C30_vortex_line_finite"
   ],
   "note": "definedness on checked real numbers (CNum.v), bound on reals"
  },
  {
   "property": "C31",
   "status": "proved",
   "theorems": [
    "C31_split_segment"
   ],
   "note": "points outside the cores of the three segments"
  },
  {
   "property": "C32",
   "status": "proved",
   "theorems": [
    "C32_frame_independence"
   ],
   "note": ""
  },
  {
   "property": "C33",
   "status": "proved",
   "theorems": [
    "C33_semi_infinite_limit"
   ],
   "note": "evaluation point outside the core of the origin"
  },
  {
   "property": "C34",
   "status": "proved",
   "theorems": [
    "C34_horseshoe_is_a_ring_closed_at_infinity"
   ],
   "note": "points off the wake lines and outside the core of the trailing corners"
  },
  {
   "property": "C35",
   "status": "proved",
   "theorems": [
    "C35_wake_singularity",
    "C35_finite_everywhere_refuted"
   ],
   "note": "finiteness everywhere refuted; singular set characterised exactly on checked real numbers"
  },
  {
   "property": "C36",
   "status": "proved",
   "theorems": [
    "C36_lattice_never_fails",
    "C36_lattice_geometry"
   ],
   "note": "sets of sails built by SailGeometry"
  },
  {
   "property": "C37",
   "status": "proved",
   "theorems": [
    "C37_watertight",
    "C37_trailing_edge"
   ],
   "note": ""
  },
  {
   "property": "C38",
   "status": "proved",
   "theorems": [
    "C38_wing_lattice"
   ],
   "note": ""
  },
  {
   "property": "C39",
   "status": "proved",
   "theorems": [
    "C39_linear_solver"
   ],
   "note": "Gaussian elimination with partial pivoting on exact reals in place of LAPACK"
  },
  {
   "property": "C40",
   "status": "proved",
   "theorems": [
    "C40_no_flux",
    "C40_flux_check"
   ],
   "note": "exact reals"
  },
  {
   "property": "C41",
   "status": "proved",
   "theorems": [
    "C41_mirror_solution",
    "C41_sail_sets"
   ],
   "note": "the sails of C41_sail_sets have one camber position, as in C17"
  },
  {
   "property": "C42",
   "status": "proved",
   "theorems": [
    "C42_inflow",
    "C42_speed",
    "C42_density"
   ],
   "note": ""
  },
  {
   "property": "C43",
   "status": "proved",
   "theorems": [
    "C43_net_circulation",
    "C43_telescope"
   ],
   "note": ""
  },
  {
   "property": "C44",
   "status": "proved",
   "theorems": [
    "C44_force_splits",
    "C44_other_names",
    "C44_vlm"
   ],
   "note": ""
  },
  {
   "property": "C45",
   "status": "proved",
   "theorems": [
    "C45_pressure",
    "C45_pressure_coefficient",
    "C45_vlm"
   ],
   "note": ""
  },
  {
   "property": "C46",
   "status": "proved",
   "theorems": [
    "C46_moments",
    "C46_shift"
   ],
   "note": ""
  },
  {
   "property": "C47",
   "status": "proved",
   "theorems": [
    "C47_recovers",
    "C47_any_moment",
    "C47_reported"
   ],
   "note": ""
  },
  {
   "property": "C48",
   "status": "proved",
   "theorems": [
    "C48_totals",
    "C48_run"
   ],
   "note": ""
  },
  {
   "property": "C49",
   "status": "proved",
   "theorems": [
    "C49_total_moment",
    "C49_refuted"
   ],
   "note": "independence refuted; the dependence is given exactly"
  },
  {
   "property": "C50",
   "status": "proved",
   "theorems": [
    "C50_rows",
    "C50_lengths"
   ],
   "note": ""
  },
  {
   "property": "C51",
   "status": "proved",
   "theorems": [
    "C51_girths",
    "C51_empty"
   ],
   "note": ""
  },
  {
   "property": "C52",
   "status": "proved",
   "theorems": [
    "C52_sections",
    "C52_between",
    "C52_uniform",
    "C52_plot_data"
   ],
   "note": ""
  },
  {
   "property": "C53",
   "status": "proved",
   "theorems": [
    "C53_swapped",
    "C53_run",
    "C53_refuted"
   ],
   "note": "the swap holds for every input; refuted on a hand-made result"
  },
  {
   "property": "C54",
   "status": "proved",
   "theorems": [
    "C54_used",
    "C54_shadowed",
    "C54_dvars",
    "C54_status",
    "C54_refuted"
   ],
   "note": "both parts of the claim are refuted; no module named variables is loaded, built in or frozen beforehand"
  },
  {
   "property": "C55",
   "status": "proved",
   "theorems": [
    "C55_checked",
    "C55_chords_unchecked",
    "C55_chords_fail",
    "C55_unknown_name",
    "C55_missing_sail",
    "C55_default_twist",
    "C55_defaults",
    "C55_base_needed",
    "C55_twist_values",
    "C55_default_sails",
    "C55_refuted"
   ],
   "note": "complete checking is refuted; what is and is not checked is given exactly"
  },
  {
   "property": "C56",
   "status": "proved",
   "theorems": [
    "C56_symmetry",
    "C56_no_lift",
    "C56_refuted"
   ],
   "note": "the coefficient of the z force is always 0 for horizontal inflow; refuted on a wing with positive force across the wind and positive theoretical lift coefficient; exact reals"
  },
  {
   "property": "C57",
   "status": "proved",
   "theorems": [
    "C57_finite_sail_angle",
    "C57_refuted"
   ],
   "note": "refuted for negative x components; the offset is exactly 180 degrees"
  },
  {
   "property": "C58",
   "status": "proved",
   "theorems": [
    "C58_coefficients",
    "C58_slope",
    "C58_lift"
   ],
   "note": ""
  },
  {
   "property": "C59",
   "status": "proved",
   "theorems": [
    "C59_frame_independence",
    "C59_turned"
   ],
   "note": "any rotation and translation for a given inflow; end to end for turns about the vertical axis"
  },
  {
   "property": "C60",
   "status": "proved",
   "theorems": [
    "C60_failures",
    "C60_complete_results"
   ],
   "note": "winds with complete data; exact reals"
  },
  {
   "property": "C61",
   "status": "proved",
   "theorems": [
    "C61_sail_rows",
    "C61_overall_rows",
    "C61_same_name"
   ],
   "note": ""
  },
  {
   "property": "C62",
   "status": "proved",
   "theorems": [
    "C62_labels",
    "C62_right",
    "C62_main_alone",
    "C62_third_sail",
    "C62_refuted"
   ],
   "note": "refuted for a main sail on its own; right otherwise"
  },
  {
   "property": "C63",
   "status": "proved",
   "theorems": [
    "C63_lines",
    "C63_ends",
    "C63_sides",
    "C63_refuted"
   ],
   "note": "the symmetry about the centre plane is refuted, and how far it fails is given exactly; the rest is proved"
  },
  {
   "property": "C64",
   "status": "proved",
   "theorems": [
    "C64_polygons",
    "C64_flat_panels"
   ],
   "note": ""
  },
  {
   "property": "C65",
   "status": "proved",
   "theorems": [
    "C65_arrows",
    "C65_run",
    "C65_other_numbers"
   ],
   "note": ""
  },
  {
   "property": "C66",
   "status": "proved",
   "theorems": [
    "C66_arrows",
    "C66_run"
   ],
   "note": "exact reals"
  },
  {
   "property": "C67",
   "status": "proved",
   "theorems": [
    "C67_run"
   ],
   "note": "exact reals"
  },
  {
   "property": "C68",
   "status": "proved",
   "theorems": [
    "C68_solver",
    "C68_run",
    "C68_camber_rejected"
   ],
   "note": "linear interpolation (for a spline the reflection of the data is a fact about the oracle); exact reals"
  },
  {
   "property": "C69",
   "status": "proved",
   "theorems": [
    "C69_origin_axis",
    "C69_line_along_x"
   ],
   "note": "scipy's Rotation.from_rotvec is modelled as quaternion and matrix, without its Taylor polynomial for small angles; undefined = division by zero on checked reals"
  },
  {
   "property": "C70",
   "status": "proved",
   "theorems": [
    "C70_files",
    "C70_nothing_on_error",
    "C70_case_file",
    "C70_stopped",
    "C70_case_copy_refuted"
   ],
   "note": "The copy clause is false of the code and refuted by concrete cases; the other clauses hold."
  },
  {
   "property": "C71",
   "status": "proved",
   "theorems": [
    "C71_exponential",
    "C71_reference_speed",
    "C71_placeholder",
    "C71_profiles_refuted"
   ],
   "note": "Exact rows proved; that every profile is reported is refuted."
  },
  {
   "property": "C72",
   "status": "proved",
   "theorems": [
    "C72_components",
    "C72_summary",
    "C72_all_labelled",
    "C72_integrals",
    "C72_inlet",
    "C72_own_label_refuted"
   ],
   "note": "The claim that every row has the colour of its own label is refuted for the inlet sheet."
  },
  {
   "property": "C73",
   "status": "proved",
   "theorems": [
    "C73_workbook"
   ],
   "note": ""
  },
  {
   "property": "C74",
   "status": "proved",
   "theorems": [
    "C74_columns",
    "C74_rows"
   ],
   "note": ""
  },
  {
   "property": "C75",
   "status": "proved",
   "theorems": [
    "C75_colours",
    "C75_sailopt",
    "C75_refuted",
    "C75_rings"
   ],
   "note": "C75_refuted: the SailOpt figure does not show the circulation its title names."
  },
  {
   "property": "C76",
   "status": "proved",
   "theorems": [
    "C76_picture",
    "C76_parts",
    "C76_tall",
    "C76_low",
    "C76_induced",
    "C76_refuted"
   ],
   "note": "C76_refuted: the axes do not enclose the sails."
  },
  {
   "property": "C77",
   "status": "proved",
   "theorems": [
    "C77_solver",
    "C77_run",
    "C77_plots",
    "C77_refuted"
   ],
   "note": "C77_solver: similarity of the solved lattice; C77_run: of a complete run with all its results, for a model scale k <= 1 (the check that the twist leaves the luff in place has an absolute tolerance); C77_plots: of the section plots; C77_refuted: the absolute core size breaks it for very small sails."
  },
  {
   "property": "C78",
   "status": "proved",
   "theorems": [
    "C78_similar",
    "C78_refuted"
   ],
   "note": "C78_similar: every result of the similar wing; the sign convention of the circulation does not matter for the forces. C78_refuted: the wing of half the size has the same pressures and force coefficients, and four times the Cp."
  },
  {
   "property": "C79",
   "status": "proved",
   "theorems": [
    "C79_scipy",
    "C79_detects",
    "C79_passes",
    "C79_other_angle"
   ],
   "note": "exact arithmetic; scipy modelled as in its source, with the polynomial for small angles"
  },
  {
   "property": "C80",
   "status": "proved",
   "theorems": [
    "C80_accepted",
    "C80_result",
    "C80_defined",
    "C80_forces_defined_refuted"
   ],
   "note": "The model is polymorphic in its numbers: the same definitions run on checked real numbers (CNum.v), on which an undefined operation gives the undefined number. inf and NaN are not distinguished. C80_forces_defined_refuted shows two panels on which Vlm returns with an undefined force."
  },
  {
   "property": "C81",
   "status": "proved",
   "theorems": [
    "C81_defined",
    "C81_errors",
    "C81_luff",
    "C81_mounting"
   ],
   "note": "On the instance of checked numbers (CNum): None is an undefined value and comparisons with it are false. Mounting points that are themselves undefined are not inputs here."
  },
  {
   "property": "C82",
   "status": "proved",
   "theorems": [
    "C82_returned",
    "C82_defined",
    "C82_tables"
   ],
   "note": "On checked numbers (CNum); inf and NaN are not distinguished, so the quotient Vy/0 counts as undefined although numpy continues with inf and returns the right angle of 90 degrees for it."
  },
  {
   "property": "C83",
   "status": "proved",
   "theorems": [
    "C83_data",
    "C83_plots"
   ],
   "note": "On checked numbers (CNum), for real results of the solver (C82 says when all of them are defined)."
  },
  {
   "property": "C84",
   "status": "proved",
   "theorems": [
    "C84_solver",
    "C84_flat",
    "C84_head_to_wind",
    "C84_reported",
    "C84_defined_refuted"
   ],
   "note": "Full statement proved; the definedness of all results is refuted by a flat rectangular main sail head to wind."
  },
  {
   "property": "C85",
   "status": "proved",
   "theorems": [
    "C85_spline",
    "C85_refused",
    "C85_through_the_data",
    "C85_cubic_data",
    "C85_linear",
    "C85_between_neighbours_refuted"
   ],
   "note": "Full statement proved for the spline of exact arithmetic; betweenness is refuted. Trusted: that FITPACK (splrep with s=0, splev) computes the not-a-knot spline."
  },
  {
   "property": "C86",
   "status": "proved",
   "theorems": [
    "C86_resampled",
    "C86_run",
    "C86_constant",
    "C86_shipped",
    "C86_range_exit",
    "C86_camber_refuted",
    "C86_few_girths",
    "C86_homogeneous"
   ],
   "note": "Full statement proved; the acceptance of all cambers within the range is refuted. C86_range_exit and C86_few_girths are stated for a main sail alone."
  },
  {
   "property": "C87",
   "status": "proved",
   "theorems": [
    "C87_run",
    "C87_stronger",
    "C87_same_apparent",
    "C87_at_rest",
    "C87_at_rest_refuted"
   ],
   "note": "Full statement proved."
  },
  {
   "property": "C88",
   "status": "proved",
   "theorems": [
    "C88_run",
    "C88_spline",
    "C88_shipped"
   ],
   "note": "Full statement proved. Without an even camber position the mirrored sail is not the mirror image of the sail (C17_mirror_image_refuted)."
  },
  {
   "property": "C89",
   "status": "proved",
   "theorems": [
    "C89_error",
    "C89_constant",
    "C89_ends",
    "C89_margin",
    "C89_range_exit_refuted"
   ],
   "note": "The bounds and the margin are proved. That in-range data are always accepted is false in double precision: C89_range_exit_refuted."
  },
  {
   "property": "C90",
   "status": "proved",
   "theorems": [
    "C90_program",
    "C90_spline",
    "C90_shipped"
   ],
   "note": "Full statement proved."
  },
  {
   "property": "C91",
   "status": "proved",
   "theorems": [
    "C91_matrix",
    "C91_rotate",
    "C91_vector",
    "C91_reverse"
   ],
   "note": "Proved for the model evaluated in double arithmetic, operation by operation."
  },
  {
   "property": "C92",
   "status": "proved",
   "theorems": [
    "C92_line",
    "C92_points",
    "C92_sail"
   ],
   "note": "Proved for the model evaluated in double arithmetic, operation by operation, in the order numpy multi_dot chooses (matrices applied one after the other to up to four points, multiplied with each other first for more); a luff nearly along the x axis (l < L/1000) is not covered."
  },
  {
   "property": "C93",
   "status": "proved",
   "theorems": [
    "C93_finite",
    "C93_segment",
    "C93_ring",
    "C93_half_line",
    "C93_horseshoe",
    "C93_wake_refuted"
   ],
   "note": "Proved for the model evaluated in double arithmetic, operation by operation; that the half line is finite everywhere off the wake is refuted by a witness."
  },
  {
   "property": "C94",
   "status": "proved",
   "theorems": [
    "C94_flux",
    "C94_accepts",
    "C94_refuses",
    "C94_scale_refuted"
   ],
   "note": "Proved for the model evaluated in double arithmetic; that the scaling law C42 carries over to doubles is refuted by a witness, which uses the order of elimination of the model of np.linalg.solve."
  },
  {
   "property": "C95",
   "status": "proved",
   "theorems": [
    "C95_solver",
    "C95_sail_sets",
    "C95_results",
    "C95_order",
    "C95_refusals"
   ],
   "note": "In exact real arithmetic; the case is a run with two different sails."
  },
  {
   "property": "C96",
   "status": "proved",
   "theorems": [
    "C96_test",
    "C96_areas",
    "C96_run",
    "C96_wake_refuted"
   ],
   "note": "The claim that forces are finite as well is false: C96_wake_refuted. It needs a library with cos 0 = 1 and sin 0 = 0."
  },
  {
   "property": "C97",
   "status": "proved",
   "theorems": [
    "C97_force",
    "C97_pressure",
    "C97_total",
    "C97_moment",
    "C97_relative"
   ],
   "note": "Relative to the computed velocities and circulations, not to the exact solution of the flow."
  },
  {
   "property": "C98",
   "status": "proved",
   "theorems": [
    "C98_accepts",
    "C98_drawn",
    "C98_order_refuted",
    "C98_moments",
    "C98_reported"
   ],
   "note": "The labels of three permuted axes are refuted. What matplotlib does with a missing colour is not modelled."
  },
  {
   "property": "C99",
   "status": "proved",
   "theorems": [
    "C99_coefficient",
    "C99_no_flux",
    "C99_velocity"
   ],
   "note": "Relative to the computed corners, normals and circulations; their distance from those of exact arithmetic depends on the conditioning of the system and is not claimed."
  }
 ]
}