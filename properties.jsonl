{"id": "C01", "title": "rotation_matrix is the right-handed rotation about the axis", "statement": "For every non-zero axis and every angle theta, applying rotation_matrix(axis, theta) to any vector gives exactly the right-handed rotation of that vector about the normalised axis by theta (Rodrigues' formula). Hence it preserves dot products and lengths, preserves cross products (orientation), and leaves the axis fixed.", "quantifier": "all non-zero axes, all angles, all vectors", "why_tests_cant": "infinitely many axes and angles; the tests rotate one vector about one axis", "anchors": ["pySailingVLM/rotations/geometry_calc.py: rotation_matrix"]}
{"id": "C02", "title": "Rotations compose and invert", "statement": "rotation_matrix(axis, -theta) undoes rotation_matrix(axis, theta); rotating by theta1 then theta2 about the same axis equals rotating once by theta1+theta2; rotating by 0 is the identity.", "quantifier": "all non-zero axes, all pairs of angles, all vectors", "why_tests_cant": "algebraic law over a continuum", "anchors": ["pySailingVLM/rotations/geometry_calc.py: rotation_matrix"]}
{"id": "C03", "title": "Rotation about an arbitrary line", "statement": "rotate_points_around_arbitrary_axis(ps, p1, p2, theta) maps every point to its right-handed rotation by theta about the line p1->p2, provided the line is not parallel to the x axis. Points of the line are fixed, distances between points are preserved, and the number of points is preserved.", "quantifier": "all point lists, all lines not parallel to x, all angles", "why_tests_cant": "infinitely many lines and angles; tests use three", "anchors": ["pySailingVLM/rotations/geometry_calc.py: rotate_points_around_arbitrary_axis"]}
{"id": "C04", "title": "Reversing the heel/leeway rotation recovers the upright point", "statement": "reverse_rotations_with_mirror(rotate_point_with_mirror(p)) = p for every point whose side of the water plane is not changed by the heel rotation. The unrestricted claim (for every p) is what a user expects; it is false for points that the heel rotation carries through the water plane.", "quantifier": "all heel and leeway angles, all points", "why_tests_cant": "tests try one point of one side", "anchors": ["pySailingVLM/rotations/csys_transformations.py: rotate_point_with_mirror, reverse_rotations_with_mirror"]}
{"id": "C05", "title": "Heel and leeway treat the mirror image as a mirror image", "statement": "For every point off the water plane, rotating its mirror image (z -> -z) gives the mirror image of the rotated point. On the water plane itself the claim fails unless y = 0 or the heel is trivial.", "quantifier": "all heel and leeway angles, all points", "why_tests_cant": "continuum of angles and points, and the z = 0 boundary", "anchors": ["pySailingVLM/rotations/csys_transformations.py: rotate_point_with_mirror"]}
{"id": "C06", "title": "Heel and leeway are rigid on each side of the water", "statement": "rotate_point_with_mirror preserves the distance of each point from the origin and the distance between any two points on the same side of the water plane; with zero heel and zero leeway it is the identity; rotate_point_without_mirror preserves all distances.", "quantifier": "all heel and leeway angles, all pairs of points", "why_tests_cant": "continuum", "anchors": ["pySailingVLM/rotations/csys_transformations.py: CSYS_transformations"]}
{"id": "C07", "title": "COW quantities are expressed in the yacht's centreline axes", "statement": "from_xyz_to_centerline_csys is documented to express vectors in axes whose x axis runs along the yacht's centreline. So the centreline direction (the image of the upright x axis under rotate_point_with_mirror) should become the x axis, and the COW angle of a horizontal vector should be its COG angle minus the leeway, as the AWA_*_COW_deg columns assume. It always preserves vector lengths, dot products and the z component; the claim about the centreline direction itself holds only when the leeway is a multiple of 180 degrees, because the leeway is applied in the wrong sense.", "quantifier": "all leeway angles, all vectors", "why_tests_cant": "continuum; the existing test merely repeats the implemented matrix", "anchors": ["pySailingVLM/rotations/csys_transformations.py: from_xyz_to_centerline_csys", "pySailingVLM/results/inviscid_flow.py: InviscidFlowResults", "pySailingVLM/inlet/inlet_conditions.py: to_df_full"]}
{"id": "C08", "title": "Airfoil parameters are validated", "statement": "VlmAirfoil(m, p, t, n) is constructed exactly when 0<=m<=0.3, 0<=p<=0.9 and 0<=t<=0.4; any other triple (including NaN) terminates with SystemExit(1); an accepted triple never fails later, for any number of points.", "quantifier": "all parameter triples, in any number system including IEEE doubles with NaN, all n", "why_tests_cant": "continuum of parameters; tests try five bad triples", "anchors": ["pySailingVLM/thin_airfoil/vlm_airfoil.py: __check_naca_params, __get_y_camber"]}
{"id": "C09", "title": "Camber line shape", "statement": "For accepted parameters with p > 0 the camber line starts and ends on the chord line, is never negative, never exceeds the maximum camber m, reaches m at x = p, rises before p and falls after it. For p = 0 (accepted by the validation) the start is at height m instead of 0.", "quantifier": "all accepted (m, p), all x in [0,1]", "why_tests_cant": "continuum", "anchors": ["pySailingVLM/thin_airfoil/vlm_airfoil.py: __get_y_camber"]}
{"id": "C10", "title": "Camber slope is the derivative of the camber line", "statement": "The slope used to place the upper and lower surface is the derivative of the camber line at every interior station, including at the junction x = p.", "quantifier": "all accepted (m, p) with p > 0, all x in (0,1)", "why_tests_cant": "a derivative is a limit, tests see finitely many samples", "anchors": ["pySailingVLM/thin_airfoil/vlm_airfoil.py: __get_dy_dx_camber"]}
{"id": "C11", "title": "Thickness distribution", "statement": "The half thickness is non-negative along the chord and zero at the leading and trailing edge; the upper and lower surface points are symmetric about the camber point, at distance exactly the half thickness; zero thickness gives upper = lower = camber line.", "quantifier": "all accepted parameters, all stations in [0,1]", "why_tests_cant": "continuum", "anchors": ["pySailingVLM/thin_airfoil/vlm_airfoil.py: __get_camber_thickness, VlmAirfoil.__init__"]}
{"id": "C12", "title": "Segment discretisation", "statement": "discrete_segment(p1, p2, n) returns n+1 points; the first is p1 and the last is p2; consecutive points differ by exactly (p2-p1)/n; discretising the reversed segment gives the reversed points.", "quantifier": "all end points, all n >= 1", "why_tests_cant": "all n and all points", "anchors": ["pySailingVLM/solver/mesher.py: discrete_segment"]}
{"id": "C13", "title": "Airfoil mesh follows the luff and the chords", "statement": "make_airfoil_mesh returns n_spanwise+1 sections of n_chordwise+1 points. For luffs in the plane y=0, cambers in range and p > 0, section k starts at the k-th luff point, ends at that point moved aft by the k-th chord, stays at the luff point's height, and departs sideways from the chord by at most camber*chord.", "quantifier": "all luffs, chord vectors, grid sizes, camber data", "why_tests_cant": "all grid sizes and geometries", "anchors": ["pySailingVLM/solver/mesher.py: make_airfoil_mesh"]}
{"id": "C14", "title": "Panels tile the mesh and edge flags are exact", "statement": "From a mesh of (nc+1) x (ns+1) points, make_panels_from_mesh_spanwise makes nc*ns panels; panel i*ns+j has exactly the four corners of cell (i,j) in the order SE, SW, NW, NE; the trailing flag is set exactly for the last chordwise row; the leading flag exactly for the first row when nc>=2 and nowhere when nc=1.", "quantifier": "all meshes of all sizes, over any number system", "why_tests_cant": "all grid sizes", "anchors": ["pySailingVLM/solver/panels.py: make_panels_from_mesh_spanwise"]}
{"id": "C15", "title": "Panel area", "statement": "get_panels_area returns the true area for every planar panel whose two chordwise edges are parallel (which covers untwisted sails and wings), is never negative, does not change under translation, rotation or mirroring and scales with the square of the size. For general planar convex panels it is not the area.", "quantifier": "all panels", "why_tests_cant": "continuum of panels; the test has one square", "anchors": ["pySailingVLM/solver/panels.py: get_panels_area"]}
{"id": "C16", "title": "Wing mesh from four corners", "statement": "make_panels_from_le_te_points divides the quadrilateral bilinearly: corner (i,j) of the panel grid is the bilinear interpolation of the four given corners; the outer corners of the grid are the given corners.", "quantifier": "all corners, all grid sizes", "why_tests_cant": "all sizes", "anchors": ["pySailingVLM/solver/panels.py: make_panels_from_le_te_points", "pySailingVLM/solver/mesher.py: make_point_mesh"]}
{"id": "C17", "title": "The underwater sail is the mirror image of the sail", "statement": "For a sail above the water whose camber position does not vary along the span, every underwater panel is the mirror image (z -> -z) of the above-water panel of the same chordwise row and opposite spanwise index, with its corners in the mirrored order. When the camber position varies along the span the claim fails: the underwater sections use the camber positions of the wrong stations.", "quantifier": "all sail dimensions, chords, cambers, twists, heel, leeway, grid sizes", "why_tests_cant": "all geometries; one test compares two coordinates", "anchors": ["pySailingVLM/yacht_geometry/sail_geometry.py: SailGeometry.__init__"]}
{"id": "C18", "title": "Twist leaves the luff in place", "statement": "Applying twist never moves a luff point, so the built-in self check never aborts a run for a sail above the water whose camber position is positive and whose luff is not parallel to the x axis after heel and leeway.", "quantifier": "all sail dimensions, twists, heel, leeway, grid sizes", "why_tests_cant": "all geometries", "anchors": ["pySailingVLM/yacht_geometry/sail_geometry.py: SailGeometry.__init__, rotate_points_around_le"]}
{"id": "C19", "title": "Twist modes", "statement": "Each section is rotated rigidly about the (heeled) luff by its own twist angle, whether or not all twist angles are equal. The documented modes 'sheeting_angle_const' and 'average_const' should use the minimum respectively the average twist for all sections; they do not: every accepted mode produces the 'real_twist' geometry.", "quantifier": "all twist vectors, all modes", "why_tests_cant": "all twist vectors; no test uses another mode", "anchors": ["pySailingVLM/yacht_geometry/sail_geometry.py: SailGeometry.__init__, rotate_points_around_le"]}
{"id": "C20", "title": "SailSet layout", "statement": "SailSet.panels lists the above-water panels of all sails in order, then the underwater panels of all sails in the same order; the trailing and leading flags follow the same layout, so the panel with index i and the flags with index i describe the same panel. An empty list of sails is rejected.", "quantifier": "all lists of sails of all sizes", "why_tests_cant": "all sizes", "anchors": ["pySailingVLM/yacht_geometry/sail_geometry.py: SailSet"]}
{"id": "C21", "title": "Main sail mounting points", "statement": "make_main_sail puts the tack at height (sheer+boom)*sin(rake), the head at distance main_sail_luff from the tack, and tack, head and mast foot on one line inclined by the rake angle.", "quantifier": "all rig dimensions and rake angles", "why_tests_cant": "continuum", "anchors": ["pySailingVLM/yacht_geometry/sail_factory.py: SailFactory.make_main_sail"]}
{"id": "C22", "title": "Jib mounting points lie on the forestay", "statement": "make_jib puts head and tack at distance jib_luff and the luff parallel to the forestay of the triangle with the given base, height and rake angle, provided the mast top is not forward of the forestay's foot; otherwise the arcsine picks the wrong angle and the luff is not parallel to the forestay. The tack is at sheer height above the water, in the plane of symmetry, forward of the mast's foot, and the offset mast_LOA is its distance from the mast measured square to the mast. The arcsine's argument is always in [-1,1].", "quantifier": "all rig dimensions and rake angles", "why_tests_cant": "continuum", "anchors": ["pySailingVLM/yacht_geometry/sail_factory.py: SailFactory.make_jib"]}
{"id": "C23", "title": "Linear interpolation of sail data", "statement": "interpolate_girths with type 'linear' returns n_points values; for strictly increasing girths each value lies between two neighbouring data values, the interpolation passes through the data, reproduces affine data exactly on the girth range, and starts/ends with the first/last datum when the girths run from 0 to 1. An unknown interpolation type is rejected with KeyError.", "quantifier": "all data, all n_points", "why_tests_cant": "continuum of data", "anchors": ["pySailingVLM/solver/interpolator.py: interpolate_girths"]}
{"id": "C24", "title": "Mirrored section data is symmetric", "statement": "interpolate_and_mirror_girths returns a list of 2*n_points values that reads the same forwards and backwards and whose second half is interpolate_girths of the same data.", "quantifier": "all data, all n_points, both interpolation types", "why_tests_cant": "all sizes", "anchors": ["pySailingVLM/solver/interpolator.py: interpolate_and_mirror_girths, interpolate_data_for_sections"]}
{"id": "C25", "title": "Wind profiles", "statement": "The flat profile is the same at every height; the exponential and logarithmic profiles give exactly tws_ref at the reference height (measured from the reference water level), grow with height, and every profile blows horizontally in the direction alpha_true_wind. Speeds are non-negative for the flat and exponential profile; the logarithmic profile is negative (reversed wind) below the roughness height.", "quantifier": "all profile parameters, all positive heights", "why_tests_cant": "continuum of heights", "anchors": ["pySailingVLM/inlet/winds.py: FlatWindProfile, LogWindProfile, ExpWindProfile"]}
{"id": "C26", "title": "Apparent wind", "statement": "The inflow at a panel is the true wind at the height |z| of its centre of pressure plus the yacht speed along x; two panels that are mirror images in the water plane get the same inflow, and the inflow is horizontal.", "quantifier": "all profiles, all centre-of-pressure lists", "why_tests_cant": "continuum", "anchors": ["pySailingVLM/inlet/inlet_conditions.py: InletConditions", "pySailingVLM/inlet/winds.py: get_app_infs_at_h"]}
{"id": "C27", "title": "Apparent wind angle formula agrees with the apparent wind vector", "statement": "get_app_alfa_infs_at_h returns the direction of the apparent wind vector for true wind angles in [0,180] degrees, non-negative wind and yacht speeds and non-zero apparent wind; for wind from the other side (negative angles) it does not.", "quantifier": "all speeds and angles", "why_tests_cant": "continuum", "anchors": ["pySailingVLM/inlet/winds.py: get_app_alfa_infs_at_h"]}
{"id": "C28", "title": "Wind configuration is checked", "statement": "Wind(conditions) should reject missing parameters for the chosen profile and reject unknown profile names. It rejects missing roughness or height for 'logarithmic'; but a missing coefficient for 'exponential' is not rejected (the check spells the name differently), and unknown names silently select the logarithmic profile.", "quantifier": "all condition records", "why_tests_cant": "all strings", "anchors": ["pySailingVLM/runner/sail.py: Wind"]}
{"id": "C29", "title": "Vortex segment obeys Biot-Savart", "statement": "Outside the vortex core vortex_line returns the Biot-Savart velocity gamma/(4 pi) (r1 x r2)/|r1 x r2|^2 r0.(r1/|r1| - r2/|r2|); it is linear in gamma, changes sign when the end points are exchanged, and is orthogonal to the plane through the segment and the point; inside the core, and on the segment's line, it is zero.", "quantifier": "all points, end points, strengths", "why_tests_cant": "continuum", "anchors": ["pySailingVLM/solver/velocity.py: vortex_line, is_in_vortex_core"]}
{"id": "C30", "title": "Vortex segment velocity is always finite", "statement": "vortex_line never divides by zero, and its magnitude is bounded for points at perpendicular distance at least d from the segment's line by |gamma|/(2 pi d).", "quantifier": "all points, end points, strengths", "why_tests_cant": "continuum including degenerate segments", "anchors": ["pySailingVLM/solver/velocity.py: vortex_line"]}
{"id": "C31", "title": "Splitting a vortex segment changes nothing", "statement": "For a point outside the cores, the velocity of a straight vortex segment equals the sum of the velocities of the two pieces obtained by cutting it at any interior point.", "quantifier": "all segments, cut points and evaluation points outside the cores", "why_tests_cant": "continuum", "anchors": ["pySailingVLM/solver/velocity.py: vortex_line"]}
{"id": "C32", "title": "Frame independence of vortex velocities", "statement": "Translating, rotating or mirroring a vortex segment, infinite line, ring or horseshoe together with the evaluation point (and wake direction) translates, rotates, respectively mirrors-and-reverses the induced velocity.", "quantifier": "all rigid motions, all vortices and points", "why_tests_cant": "continuum", "anchors": ["pySailingVLM/solver/velocity.py: vortex_line, vortex_infinite_line, vortex_ring, vortex_horseshoe_v2"]}
{"id": "C33", "title": "Semi-infinite vortex line is the limit of long segments", "statement": "vortex_infinite_line(P, A, r0) is the limit of vortex_line(P, A, A + t*r0) for t -> infinity, for P off the line; and the difference of two semi-infinite lines on the same line is the finite segment between their origins.", "quantifier": "all points, origins and directions", "why_tests_cant": "a limit", "anchors": ["pySailingVLM/solver/velocity.py: vortex_infinite_line"]}
{"id": "C34", "title": "Horseshoe is a ring closed at infinity", "statement": "vortex_horseshoe_v2 is the limit of vortex_ring-type closed polygons whose downstream edge is carried away with the wind, for points off the wake lines; vortex_horseshoe is vortex_horseshoe_v2 with the downstream legs of zero length; a ring traversed backwards gives the opposite velocity.", "quantifier": "all rings, points, wind directions", "why_tests_cant": "a limit", "anchors": ["pySailingVLM/solver/velocity.py: vortex_horseshoe_v2, vortex_horseshoe, vortex_ring"]}
{"id": "C35", "title": "Semi-infinite vortex is singular on its wake", "statement": "vortex_infinite_line should be finite everywhere like vortex_line; but it has no core check: its denominator is zero exactly when P is on the downstream half line (including its origin), and non-zero elsewhere.", "quantifier": "all points, origins and directions", "why_tests_cant": "exact characterisation of the singular set", "anchors": ["pySailingVLM/solver/velocity.py: vortex_infinite_line"]}
{"id": "C36", "title": "Lattice construction succeeds and is consistent", "statement": "For panels, flags and grid sizes as produced by SailSet, calculate_vlm_variables never fails; for each panel the centre of pressure and control point are at 1/4 and 3/4 of the panel's mid line, the normal is a unit vector orthogonal to both diagonals, the bound vortex lies on the quarter chord line, and the span vector is the bound vortex times the orientation.", "quantifier": "all sail sets, all grid sizes, over any number system for the indices", "why_tests_cant": "all sizes", "anchors": ["pySailingVLM/solver/coefs.py: calculate_vlm_variables"]}
{"id": "C37", "title": "The vortex lattice is watertight", "statement": "The aft edge of each ring coincides with the bound (front) edge of the ring behind it in the same sail; neighbouring rings in a spanwise row share their side edges whenever the panels share theirs; aft edges of trailing-edge panels lie a quarter panel behind the trailing edge.", "quantifier": "all sail sets, all grid sizes", "why_tests_cant": "all sizes", "anchors": ["pySailingVLM/solver/coefs.py: calculate_vlm_variables"]}
{"id": "C38", "title": "Wing and sail lattices agree", "statement": "On meshes made by make_panels_from_le_te_points the simpler per-panel lattice used for the aircraft equals the one computed by calculate_vlm_variables.", "quantifier": "all wings, all grid sizes", "why_tests_cant": "all sizes", "anchors": ["pySailingVLM/solver/coefs.py: calculate_normals_collocations_cps_rings_spans_leading_trailing_mid_points, calculate_vlm_variables", "pySailingVLM/runner/aircraft.py: Aircraft"]}
{"id": "C39", "title": "Circulations solve the linear system", "statement": "If solve_eq returns circulations, they satisfy every equation of the influence system exactly (in exact arithmetic) and are the only solution; if it fails, the system is singular.", "quantifier": "all square systems of all sizes", "why_tests_cant": "all sizes", "anchors": ["pySailingVLM/solver/coefs.py: solve_eq"]}
{"id": "C40", "title": "No flow through the sails", "statement": "Whenever the solver gets circulations, the velocity (inflow plus induced) at every control point has exactly zero component along the panel normal, so in exact arithmetic the built-in flux check can only fail because of a suspicious panel area.", "quantifier": "all lattices, winds, sizes", "why_tests_cant": "all sizes", "anchors": ["pySailingVLM/solver/coefs.py: calc_velocity_coefs, calculate_RHS", "pySailingVLM/solver/forces.py: is_no_flux_BC_satisfied", "pySailingVLM/solver/vlm.py: Vlm"]}
{"id": "C41", "title": "The water surface is a plane of symmetry of the solution", "statement": "For a lattice whose second half is the mirror image of the first (as in C17), any solution of Vlm has equal circulations on mirror panels, mirrored velocities and forces, and the total velocity field has no vertical component anywhere on the water plane outside singularities.", "quantifier": "all mirror-symmetric lattices and winds, all sizes", "why_tests_cant": "all sizes and geometries", "anchors": ["pySailingVLM/solver/vlm.py: Vlm", "pySailingVLM/yacht_geometry/sail_geometry.py: SailSet"]}
{"id": "C42", "title": "Scaling laws", "statement": "Multiplying the inflow by k > 0 multiplies circulations and induced velocities by k, forces and pressures by k^2 and leaves pressure coefficients unchanged; multiplying the density by k multiplies forces by k and leaves circulations unchanged.", "quantifier": "all lattices, inflows, k > 0", "why_tests_cant": "all sizes and inflows", "anchors": ["pySailingVLM/solver/vlm.py: Vlm", "pySailingVLM/solver/forces.py: calc_force_wrapper, calc_pressure_coeff"]}
{"id": "C43", "title": "Net bound circulation uses the panel upstream in the same strip", "statement": "In calc_force_wrapper the circulation subtracted for panel i is that of the panel immediately upstream in the same strip of the same sail; the Python index never becomes negative, for all sail sets and grid sizes. Summed over a strip the net circulations telescope to the circulation of the trailing-edge panel.", "quantifier": "all sail sets and grid sizes, over any number system for the indices", "why_tests_cant": "all sizes; negative Python indices wrap silently", "anchors": ["pySailingVLM/solver/forces.py: calc_force_wrapper"]}
{"id": "C44", "title": "Force splits into lift and drag parts", "statement": "For every panel the 'force_xyz' result is the sum of the 'lift' and 'drag' results; the lift part is orthogonal to the inflow and to the bound vortex, the force is orthogonal to the local velocity. Any other force name terminates the program without computing.", "quantifier": "all lattices, circulations, inflows", "why_tests_cant": "continuum", "anchors": ["pySailingVLM/solver/forces.py: calc_force_wrapper"]}
{"id": "C45", "title": "Pressure", "statement": "pressure times area is the force component along the normal, and the pressure coefficient times the dynamic pressure of the local inflow is the pressure, for every panel.", "quantifier": "all forces, normals, non-zero areas and inflows, all sizes", "why_tests_cant": "continuum", "anchors": ["pySailingVLM/solver/forces.py: calc_pressure, calc_pressure_coeff"]}
{"id": "C46", "title": "Moment arms and change of reference point", "statement": "Moments are taken about the reference point: shifting the reference point by d changes the above-water total moment by exactly -d x F_total; mirrored panels have mirrored arms.", "quantifier": "all reference points, forces, points", "why_tests_cant": "continuum", "anchors": ["pySailingVLM/solver/forces.py: calc_moment_arm_in_shifted_csys, calc_moments"]}
{"id": "C47", "title": "Centre of effort estimate", "statement": "determine_vector_from_its_dot_and_cross_product recovers r from F, r.F and r x F for every non-zero F; for totals that do not come from a single force it returns the point R with R.F equal to the given dot product and R x F equal to the given moment minus its component along F (so it reproduces the moment exactly iff the moment is orthogonal to F).", "quantifier": "all vectors", "why_tests_cant": "continuum; a test comment calls the mismatch 'weird'", "anchors": ["pySailingVLM/solver/forces.py: determine_vector_from_its_dot_and_cross_product"]}
{"id": "C48", "title": "Reported totals add up", "statement": "F_sails_total is the sum over all above-water panels and equals the sum of the per-sail totals; likewise for moments; the per-sail totals use exactly the panels of that sail. COW totals equal the transformed COG totals.", "quantifier": "all sail sets, sizes, forces", "why_tests_cant": "all sizes", "anchors": ["pySailingVLM/results/inviscid_flow.py: InviscidFlowResults", "pySailingVLM/solver/additional_functions.py: extract_above_water_quantities"]}
{"id": "C49", "title": "Total moment including the keel does not depend on the reference point", "statement": "Sail and keel forces are opposite, so the reported total moment should not depend on reference_level_for_moments. It does: the keel moment is not shifted, the total changes by exactly -d x F_total.", "quantifier": "all forces and reference points", "why_tests_cant": "continuum", "anchors": ["pySailingVLM/results/inviscid_flow.py: estimate_heeling_moment_from_keel"]}
{"id": "C50", "title": "Result table rows describe one panel each", "statement": "In the 'Components' table every row k combines force, inflow, upright height, girth and sail name of the same above-water panel, in SailSet order. The length columns hold the Euclidean lengths of the vector columns of the same row.", "quantifier": "all sail sets and grid sizes", "why_tests_cant": "all sizes; re-ordering through several splits and concatenations", "anchors": ["pySailingVLM/results/save_utils.py: save_results_to_file", "pySailingVLM/solver/additional_functions.py: get_cp_z_as_girths_all, get_cp_z_as_girths_all_above"]}
{"id": "C51", "title": "Girth coordinates are normalised", "statement": "For each sail the reported girths are at most 1, equal 1 for the highest centre of pressure, are 0 at tack height and grow linearly with upright height.", "quantifier": "all cp lists with a point above the tack", "why_tests_cant": "continuum", "anchors": ["pySailingVLM/solver/additional_functions.py: cp_to_girths"]}
{"id": "C52", "title": "Section coefficients", "statement": "Each section coefficient returned by get_C is the area-weighted mean of the panel coefficients of exactly that strip of exactly that above-water sail, so it lies between the smallest and largest panel coefficient of the strip; the normalised data for the plots has area-weighted mean 1.", "quantifier": "all sail sets and sizes with positive areas", "why_tests_cant": "all sizes", "anchors": ["pySailingVLM/solver/coefs.py: get_C, get_data_for_coeff_plot"]}
{"id": "C53", "title": "Section plots show what their name says", "statement": "The command line run should store the lift coefficients in section_cl and the drag coefficients in section_cd. It stores them the other way round, for every input.", "quantifier": "all runs", "why_tests_cant": "all inputs; plots are not tested", "anchors": ["pySailingVLM/runner/cli.py: main", "pySailingVLM/solver/panels_plotter.py: plot_section_coeff"]}
{"id": "C54", "title": "The variables file given with --dvars is the one used", "statement": "A run with --dvars d uses d/variables.py if it exists, and a missing file is reported with a non-zero exit status. Neither holds: d is searched last on the module path so an earlier variables module shadows it, and the missing file ends the program with status 0.", "quantifier": "all module search paths", "why_tests_cant": "depends on the environment", "anchors": ["pySailingVLM/runner/cli.py: load_variable_module"]}
{"id": "C55", "title": "Sail configuration is checked", "statement": "Sail(...) should reject incomplete or inconsistent sail data before any geometry is built. It rejects missing girths, twist, camber and camber position and unequal lengths among them with a clean exit, but never looks at the chords; an unknown sails_def passes the check and fails later with ValueError; with sails_def naming a sail that was passed as None it fails with UnboundLocalError; a rig with only a main sail and no fore triangle base passes, but every run of it ends with TypeError when the hull is made. A twist that is left out becomes 5 + 12*girth degrees for a main sail and 7 + 15*girth for a jib; sails with all data left out have the stated dimensions and can be rigged.", "quantifier": "all configurations", "why_tests_cant": "all configurations", "anchors": ["pySailingVLM/runner/sail.py: Sail.__post_init__, check_list_for_none, check_input_arr_shapes"]}
{"id": "C56", "title": "Aircraft lift coefficient", "statement": "Aircraft.CL should be the lift coefficient. The wing spans the z axis and CL is computed from the z force, so CL is exactly 0 for every wing with inflow in the x-y plane whose system is solvable; Cxyz carries the lift in its y component.", "quantifier": "all wings, grid sizes and horizontal inflows", "why_tests_cant": "all sizes", "anchors": ["pySailingVLM/runner/aircraft.py: Aircraft", "pySailingVLM/solver/coefs.py: get_vlm_CL_CD_free_wing"]}
{"id": "C57", "title": "Apparent wind angle of the finite sail", "statement": "AWA_fs_COG_deg should be the direction of V_app_fs, as AWA_infs_COG_deg is the direction of V_app_infs. It is when the x component is positive; when the x component is negative it is off by 180 degrees.", "quantifier": "all velocities", "why_tests_cant": "continuum", "anchors": ["pySailingVLM/results/inviscid_flow.py: InviscidFlowResults"]}
{"id": "C58", "title": "Theoretical wing coefficients", "statement": "get_CL_CD_free_wing gives a lift coefficient proportional to the angle of attack, below the two-dimensional value and increasing towards it with aspect ratio, and an induced drag CL^2/(pi AR 0.8) which is never negative.", "quantifier": "all positive aspect ratios, all angles", "why_tests_cant": "continuum", "anchors": ["pySailingVLM/solver/coefs.py: get_CL_CD_free_wing"]}
{"id": "C59", "title": "Frame independence of the solver", "statement": "Rotating a whole lattice and its inflow by any rotation leaves all circulations and pressures unchanged and rotates all forces and velocities.", "quantifier": "all rotations, lattices and inflows, all sizes", "why_tests_cant": "all sizes", "anchors": ["pySailingVLM/solver/coefs.py: calc_velocity_coefs, calculate_RHS, solve_eq", "pySailingVLM/solver/forces.py: calc_force_wrapper"]}
{"id": "C60", "title": "Every run either stops with a diagnosed error or delivers complete results", "statement": "For sails built by SailFactory with consistent lengths, the Vlm stage can only fail because the influence matrix is singular or a panel area is suspicious; when it succeeds all result arrays have one entry per panel.", "quantifier": "all sail sets and winds, all sizes", "why_tests_cant": "all sizes", "anchors": ["pySailingVLM/solver/vlm.py: Vlm.__post_init__"]}
{"id": "C61", "title": "Integral table distinguishes the sails", "statement": "In the integral table the rows F_<name>_total_COG and M_<name>_total_COG hold the totals of the sail of that name. They do when the names are distinct and none is 'sails' or 'keel'; of several sails with the same name only the last one is reported, and a sail named 'sails' replaces the rows of the overall total.", "quantifier": "all sail sets and names", "why_tests_cant": "all name combinations", "anchors": ["pySailingVLM/results/inviscid_flow.py: InviscidFlowResults.to_df_integral"]}
{"id": "C62", "title": "Section plots label the sails correctly", "statement": "The curves of the section plots should carry the name of their sail. The label comes from the position in the sail set ('jib', then 'main'): it is right for a jib and for jib and main, but a main sail on its own is shown as 'jib' in every run; a third sail is an IndexError.", "quantifier": "all runs of the command line program", "why_tests_cant": "all configurations; plots are not tested", "anchors": ["pySailingVLM/solver/panels_plotter.py: plot_section_coeff", "pySailingVLM/runner/cli.py: main"]}
{"id": "C63", "title": "Hull drawing", "statement": "HullGeometry draws a hull in the yacht's frame: the lines have 51 points each, port and starboard deck lines are mirror images about the centre plane and meet at bow and stern, and each underwater line is the mirror image of its deck line. The mirror images and the common end points hold; the symmetry about the centre plane does not, because the 1 percent camber at position 0 moves every point to one side, and the stern is off the centre plane.", "quantifier": "all sheer heights, fore triangle bases, heel and leeway angles", "why_tests_cant": "continuum; not tested", "anchors": ["pySailingVLM/yacht_geometry/hull_geometry.py: HullGeometry", "pySailingVLM/thin_airfoil/vlm_airfoil.py: VlmAirfoil"]}
{"id": "C64", "title": "The pressure plot shows every panel with its own coefficient", "statement": "For every run of the program plot_cp draws one polygon per panel of the sail set; polygon k is the closed outline, seen from the side, of panel k of the flat (unrotated) mesh, coloured with the pressure coefficient of panel k.", "quantifier": "all sail sets, grid sizes and results", "why_tests_cant": "all sizes; plots are not tested", "anchors": ["pySailingVLM/solver/panels_plotter.py: plot_cp", "pySailingVLM/runner/cli.py: main", "pySailingVLM/yacht_geometry/sail_geometry.py: SailSet"]}
{"id": "C65", "title": "The wind arrows show the wind at the leading row of panels", "statement": "For every run with one or two sails display_winds draws, without an assertion failure, one true and one apparent wind arrow for each panel of the first chordwise row of every sail and of its mirror image: at the height of the control point, along the true or apparent wind at that point, opaque exactly above the water. With any other number of sails the assertion fails.", "quantifier": "all runs and grid sizes", "why_tests_cant": "all sizes; plots are not tested", "anchors": ["pySailingVLM/solver/panels_plotter.py: display_winds"]}
{"id": "C66", "title": "Arrows of sail force and lateral resistance", "statement": "display_CE_CLR draws two arrows that are equal and opposite, along the total force, one at the centre of effort and one at the centre of lateral resistance of the hull, with length 0.8 times the mean apparent wind speed at the panels, whenever the total force is not zero.", "quantifier": "all results", "why_tests_cant": "continuum; plots are not tested", "anchors": ["pySailingVLM/solver/panels_plotter.py: display_CE_CLR", "pySailingVLM/solver/additional_functions.py: normalize"]}
{"id": "C67", "title": "A valid configuration runs", "statement": "With ascending girths, arrays of equal length, camber and camber position in range, a standing rig that carries the sails above the water, complete wind data, a fore triangle base, linear interpolation and a documented twist mode, a run delivers complete results for the configured sails, or stops with LinAlgError because the system is singular, or with ValueError because a panel has an area below 1e-14.", "quantifier": "all valid configurations", "why_tests_cant": "all configurations and sizes", "anchors": ["pySailingVLM/runner/cli.py: main", "pySailingVLM/runner/sail.py: Sail, Wind", "pySailingVLM/solver/vlm.py: Vlm.__post_init__"]}
{"id": "C68", "title": "The other tack", "statement": "Sailing the same uncambered sails on the other tack is the mirror image: with heel, leeway, wind angle and twist of the opposite sign, and the reference point and centre of lateral resistance reflected about the centre plane, a run finishes exactly as before; circulations and pressures change sign, velocities, forces, moment arms and the centre of effort are reflected, heeling and yawing moments change sign and the pitching moment stays. For a cambered sail the reflected input, with camber of the opposite sign, is refused with SystemExit 1, so the other tack cannot be computed.", "quantifier": "all runs with linear interpolation and uncambered sails; all cambered sails for the refusal", "why_tests_cant": "continuum; no test compares tacks", "anchors": ["pySailingVLM/runner/cli.py: main", "pySailingVLM/yacht_geometry/sail_geometry.py: SailGeometry", "pySailingVLM/rotations/csys_transformations.py: CSYS_transformations", "pySailingVLM/thin_airfoil/vlm_airfoil.py: VlmAirfoil", "pySailingVLM/results/inviscid_flow.py: InviscidFlowResults"]}
{"id": "C69", "title": "Rotation about an axis through the origin", "statement": "rotate_points_around_origin_axis turns every point right-handed by the angle about the axis, whatever the length of the axis; it gives the same points as rotation_matrix and, for an axis not parallel to x, as rotate_points_around_arbitrary_axis with the origin and the axis as the two points. For a line parallel to the x axis rotate_points_around_arbitrary_axis divides zero by zero and every coordinate it returns is undefined.", "quantifier": "all points, axes other than zero and angles", "why_tests_cant": "continuum of inputs; the tests use half turns only, which do not fix the sense of the rotation", "anchors": ["pySailingVLM/rotations/geometry_calc.py: rotate_points_around_origin_axis, rotate_points_around_arbitrary_axis, rotation_matrix"]}
{"id": "C70", "title": "Files written by a run", "statement": "A case that computes (with some panel edge whose middle is off the water, see C76) leaves in the output directory the workbook, a copy of the case file, the pressure plot and the two section plots with the results of that run, creates that directory and changes no other file; a case whose computation raises changes nothing on disk; if the case file is missing or is its own target, the program stops with FileNotFoundError or SameFileError after the workbook and before the plots. The copy is not always the case that was run: with the shipped case_dir (the working directory) and --dvars another directory it is a different file or absent, and with output_args omitted it is the package's container.py.", "quantifier": "for all cases, disks, output names and directories that are usable, all number formats and interpolations", "why_tests_cant": "Tests write one run into a fresh directory; they never start the program from another directory, never overwrite, never fail half-way.", "anchors": ["pySailingVLM/runner/cli.py: main", "pySailingVLM/results/save_utils.py: save_results_to_file, save_to_excel", "pySailingVLM/runner/container.py: Output", "pySailingVLM/variables.py: output_args"]}
{"id": "C71", "title": "Inlet conditions sheet", "statement": "For the exponential profile the sheet IC_at_reference_height has twelve rows in a fixed order: the measurement height, the water level, the true wind the profile gives at that height with its length, the apparent wind (true wind plus yacht speed) with its length, and its direction in degrees over ground and, less the leeway, over water. The length of the true wind equals tws_ref exactly when the water level is 0, is larger below and smaller above. For flat and logarithmic profiles the sheet holds a placeholder and none of these rows.", "quantifier": "for all winds, exponents, measurement heights and water levels below them, leeway angles", "why_tests_cant": "The recorded test has the water level 0 and the exponential profile, where the report and the reference agree.", "anchors": ["pySailingVLM/inlet/winds.py: ExpWindProfile.to_df_integral, FlatWindProfile.to_df_integral, LogWindProfile.to_df_integral"]}
{"id": "C72", "title": "Cell colours", "statement": "On the sheet Components every number has the colour of the label in its column name (sand for COG, blue for COW, none otherwise). On a summary sheet a row has the colour of the first labelled row at or below it; so on Integrals, where every row is labelled, every row has its own colour, while on the sheet of inlet conditions the two heights and the length of the true wind, which have no label, are shown as COG.", "quantifier": "for all column names, row names, row numbers and cell values; for all runs", "why_tests_cant": "No test opens the workbook; the colours depend on the order in which rules are added and on ranges that grow with the row.", "anchors": ["pySailingVLM/results/save_utils.py: save_to_excel"]}
{"id": "C73", "title": "Rounded numbers of the workbook agree", "statement": "In the workbook of a run, for forces and moments and each axis, the total differs from the sum of the sails' totals by at most (n+1)/200, from the sum over the Components rows by at most 1/200 + rows/(2*10^8), and each sail's total from the sum of its rows likewise; with one sail its total and the overall total are the same number.", "quantifier": "for all finished runs, every rounding to n decimals with error at most half a unit, F and M, all axes", "why_tests_cant": "Tests compare unrounded tables of one run.", "anchors": ["pySailingVLM/results/save_utils.py: save_to_excel", "pySailingVLM/results/inviscid_flow.py: to_df_integral, to_df_full"]}
{"id": "C74", "title": "Layout of the result sheets", "statement": "The sheet Components has 37 columns in one fixed order whatever the run; the sheet Integrals has for every run the rows of its sails, the overall force and moment rows over ground and over water and the keel rows, in one fixed order, each once.", "quantifier": "for all finished runs of the three rigs", "why_tests_cant": "The recorded files fix the order for one rig only, and the tests look rows up by name.", "anchors": ["pySailingVLM/results/inviscid_flow.py: to_df_full, to_df_integral", "pySailingVLM/inlet/inlet_conditions.py: to_df_full", "pySailingVLM/results/save_utils.py: save_results_to_file"]}
{"id": "C75", "title": "Colours of the three-dimensional picture", "statement": "In the figure of a run every panel is drawn exactly once, in order, coloured by its place between the smallest and the largest pressure coefficient of that run; a panel with a larger coefficient is never lower on the scale, and the colour bar runs between values that occur. In the SailOpt mode of the same function the title promises the optimal circulation, but colours and colour bar are those of the pressure. The function that draws panels or rings draws each one it is given a pressure for, uncoloured, in the same water and axes.", "quantifier": "for all finished runs; for the SailOpt mode all solved lattices", "why_tests_cant": "Tests never draw; a wrong scale or a wrong quantity is invisible without comparing every colour with the data.", "anchors": ["pySailingVLM/solver/panels_plotter.py: display_panels_xyz, display_panels_or_rings, display_panels_xyz_and_winds"]}
{"id": "C76", "title": "Water, axes and parts of the three-dimensional picture", "statement": "The water is a square grid of whole metres of half width int(1.1*ceil(m)), m being the largest distance of a panel edge middle from the water; the axes span exactly the water in x and y and a height range of the same half width less half a metre. If every edge middle lies on the water the figure raises ValueError. The figure holds the five hull lines, the wind arrows as far out as the water and the forces at the centres of effort and lateral resistance. A sail higher than 9 m fits the vertical axis; a lower one fits exactly when m is at least half a metre below the next whole number. In general the axes do not enclose the sails: tips and long chords can lie outside. With the induced wind shown there is a third set of arrows, from the centres of pressure, of the difference between the velocity there and the apparent wind.", "quantifier": "for all finished runs", "why_tests_cant": "Tests never draw; the sizes are rounded twice, so failures depend on the height of the sails.", "anchors": ["pySailingVLM/solver/panels_plotter.py: display_panels_or_rings, set_ax_eq, display_hull, display_panels_xyz_and_winds", "pySailingVLM/runner/cli.py: main"]}
{"id": "C77", "title": "Similar sails have similar flows", "statement": "If all lengths of the sails and of the wind profile are multiplied by k, the speeds being unchanged, then every circulation is multiplied by k, every force and panel area by k squared, and velocities, pressures and pressure coefficients do not change; the moments of a run, including that of the keel, grow with k cubed, the centre of effort moves with the yacht, and the section plots show the same curves at the scaled heights, provided no point enters or leaves a vortex core and no panel area falls below the threshold of the program. The condition on the cores is needed: the core is an absolute size, so a sail ten thousand times smaller is computed without complaint with circulations more than forty times too large.", "quantifier": "for all scales k > 0 and all solved lattices; for runs all scales 0 < k <= 1", "why_tests_cant": "Tests run one size of rig; the absolute core size has no effect at that size.", "anchors": ["pySailingVLM/solver/velocity.py: vortex_line, is_in_vortex_core", "pySailingVLM/solver/vlm.py: Vlm", "pySailingVLM/solver/coefs.py: calc_velocity_coefs", "pySailingVLM/inlet/winds.py: ExpWindProfile, LogWindProfile"]}
{"id": "C78", "title": "Similar wings", "statement": "A wing whose lengths are all multiplied by k, in a flow s times as fast of a fluid r times as dense, with the sense or unit of circulation (gamma_orientation) multiplied by m, has circulations multiplied by k s / m, forces by r s^2 k^2, pressures by r s^2 and the same CL, CD, Cxyz and theoretical coefficients, as long as no control point enters or leaves a vortex core. The pressure coefficient Cp is not a coefficient in this sense: it divides a sum of pressures by q S, so that it changes with 1/k^2.", "quantifier": "for all wings that are solved, all k, s > 0, all r and m different from zero; refuted for Cp by an exact wing", "why_tests_cant": "A test runs a few sizes and compares rounded numbers; whether the coefficients are free of the units and of the sign convention is a statement about all of them.", "anchors": ["pySailingVLM/runner/aircraft.py: Aircraft.__init__", "pySailingVLM/solver/coefs.py: get_vlm_CL_CD_free_wing", "pySailingVLM/solver/coefs.py: get_vlm_Cxyz", "pySailingVLM/solver/forces.py: calc_pressure"]}
{"id": "C79", "title": "Self checks of the coordinate system", "statement": "The constructor of CSYS_transformations compares its four rotation matrices with the same rotations computed by scipy. The comparison passes for every heel and leeway, so it never stops a run; a matrix that passes it is the wanted right-handed rotation within 1.6e-7 in every entry, so a matrix with a wrong sense or angle is noticed; and scipy's matrix (with its polynomial for angles up to 1e-3) is the rotation to 24 digits at every angle.", "quantifier": "all angles of heel and leeway, all axes and angles", "why_tests_cant": "continuum", "anchors": ["pySailingVLM/rotations/csys_transformations.py: CSYS_transformations.__init__", "pySailingVLM/rotations/geometry_calc.py: rotation_matrix"]}
{"id": "C80", "title": "The solver notices every undefined operation before the circulations and none after them", "statement": "Let Vlm run on numbers of which some are undefined (inf or NaN). It returns a result exactly if every panel has a normal (its diagonals are not parallel), the wind profile is defined at every centre of pressure, no control point is on a half line of a wake or the wake of a panel without inflow, and the run on real numbers returns. The circulations, velocities at the control points, normals, inflow and lift of the result are then those of the real run. The velocity, force and pressure of a panel are undefined exactly if its centre of pressure is on a wake: no exception is raised for it. With the centres of pressure off the wakes too, and density and inflow different from zero, every number of the result is defined.", "quantifier": "for all lists of panels, flags, grid sizes, densities and wind profiles", "why_tests_cant": "A test runs lattices that are fine. Whether any of the thousands of divisions, roots and logarithms of a run on an arbitrary lattice is undefined, and whether a NaN can pass the flux check, cannot be sampled.", "anchors": ["pySailingVLM/solver/vlm.py:54-76", "pySailingVLM/solver/forces.py:51-144", "pySailingVLM/solver/velocity.py:64-137", "pySailingVLM/solver/coefs.py:115-213", "pySailingVLM/inlet/winds.py:60-119"]}
{"id": "C81", "title": "A sail that is built has only defined coordinates, and a luff along the x axis is refused", "statement": "SailGeometry.__init__ never returns a sail with an undefined (inf or NaN) coordinate when its arguments are numbers: whatever the camber position (0 included), the number of sections and the heel, no division by zero and no root of a negative number reaches the panels. The one operation that can be undefined is the twist about the luff, when the luff is parallel to the x axis after heel and leeway; then the check of the luff fails with AssertionError, and in all other cases the sail is returned. The mounting points of the mainsail are always defined, those of the jib exactly if the sine of the rake is not zero and the base or the height of the foretriangle is not zero.", "quantifier": "all mounting points, coordinate systems, grid sizes, chords, twists, camber arrays, twist modes; for the equivalence all arguments within the documented camber range", "why_tests_cant": "tests try rigs of ordinary shape; the claim is about every arrangement including the degenerate ones at which divisors vanish", "anchors": ["pySailingVLM/yacht_geometry/sail_geometry.py:22-180", "pySailingVLM/yacht_geometry/sail_factory.py:19-60", "pySailingVLM/rotations/geometry_calc.py:7-70", "pySailingVLM/thin_airfoil/vlm_airfoil.py:8-103", "pySailingVLM/solver/mesher.py:5-69"]}
{"id": "C82", "title": "Which numbers of a run can be undefined", "statement": "A run on numbers of which some may be undefined (inf or NaN) that returns has the sails, hull, inflow, circulations and lift of the run on real numbers, all defined, and the same force on every panel whose centre of pressure is off the wakes. For a valid configuration, with density and inflow different from zero, no wind profile undefined at a centre of pressure and no control point or centre of pressure on a wake, the run on such numbers returns exactly the results of the run on real numbers, and two kinds of numbers only are undefined: the quotient behind the angle of the flow at a panel where its x component is zero, and the centre of effort if the total force is zero. The table of integrals is then always defined; the table of components is if no flow velocity lacks an x component and no sail has its highest centre of pressure at the height of its tack.", "quantifier": "for all conditions, solver settings, rigs, sails, reference points and centres of lateral resistance; linear interpolation for the run of a valid configuration", "why_tests_cant": "tests run one rig; that no other division, root or inverse function of a whole run is undefined concerns all of them", "anchors": ["pySailingVLM/runner/cli.py: main", "pySailingVLM/results/inviscid_flow.py: InviscidFlowResults", "pySailingVLM/inlet/inlet_conditions.py: InletConditions", "pySailingVLM/yacht_geometry/sail_factory.py: SailFactory", "pySailingVLM/solver/interpolator.py: Interpolator"]}
{"id": "C83", "title": "Which section plots are defined", "statement": "In the section plots of a run with positive density and nowhere vanishing inflow, the heights are always defined. The curve of a sail in the plot of file section_cl is defined at every section if some panel of that sail bears drag, and undefined at every section otherwise; the curve in section_cd likewise for lift (the two plots being exchanged, C53). No exception is raised in either case.", "quantifier": "for all runs that return, all grids, all sails of the run", "why_tests_cant": "a sail without load gives 0/0; tests do not look at the plotted numbers", "anchors": ["pySailingVLM/runner/cli.py: main", "pySailingVLM/solver/coefs.py: get_data_for_coeff_plot", "pySailingVLM/solver/coefs.py: get_C", "pySailingVLM/solver/panels_plotter.py: plot_section_coeff"]}
{"id": "C84", "title": "Sails without load", "statement": "The circulations found by the solver vanish if and only if the inflow of every panel is parallel to that panel. In that case nothing is induced (the velocities at the control points and at the centres of pressure are the inflow) and all forces, lifts, drags and pressures are zero. Uncambered and untwisted sails of a valid configuration, with any heel and leeway, are in that case whenever the inflow is along the centre plane of the yacht, in particular head to wind without leeway for every wind profile. Such a run still returns: every number of the table of integrals is zero, but the centre of effort and all curves of both section plots are 0/0, so the wish that a finished run of a valid configuration has only defined results is refuted by a concrete rig.", "quantifier": "for all panels, winds and grids for which the solver returns; for all valid rigs, headings and grids", "why_tests_cant": "an exact zero load is hit by no sampled configuration, and the undefined values raise no exception", "anchors": ["pySailingVLM/solver/vlm.py: Vlm", "pySailingVLM/solver/coefs.py: calculate_RHS", "pySailingVLM/results/inviscid_flow.py: InviscidFlowResults", "pySailingVLM/runner/cli.py: main"]}
{"id": "C85", "title": "Spline interpolation of sail data", "statement": "For at least four strictly increasing girths and as many values the interpolation \"spline\" returns the values of the not-a-knot cubic spline through the data: cubic pieces that pass through the data and join with equal slope and equal second derivative, the first two and the last two pieces being one cubic. That spline exists and is unique, also for girths that do not reach from 0 to 1 (the end pieces are continued). At a given girth the given value is returned; data on a cubic, in particular constant and linear data, is reproduced everywhere; sums and multiples of data give sums and multiples. Fewer than four points or arrays of different lengths raise TypeError, girths that do not increase raise ValueError. The wish that an interpolated value lies between its neighbours, which holds for \"linear\", is refuted.", "quantifier": "for all girths, values and numbers of points", "why_tests_cant": "existence and uniqueness quantify over all data; overshoot appears only between the given girths", "anchors": ["pySailingVLM/solver/interpolator.py: Interpolator"]}
{"id": "C86", "title": "Runs with spline interpolation", "statement": "A run with the interpolation \"spline\" equals the run with \"linear\" on the values of the splines at the sections. If these values of camber and position are in the ranges of the airfoil, then a run with valid conditions and rig returns complete results or ends with one of the two known failures (singular system, panel of almost no area); constant camber and position in range suffice, and so the configuration shipped in variables.py is of this kind on every grid. If a value of the splines leaves the ranges the program exits with status 1; the wish that cambers given within the range are accepted is refuted by a valid configuration. Fewer than four girths raise TypeError. The spline interpolation is homogeneous in the data, as the theorem on the change of scale (C77) assumes.", "quantifier": "for all rigs, conditions, grids and sail data as stated", "why_tests_cant": "the failures depend on the values of the spline between the given girths and on the grid", "anchors": ["pySailingVLM/runner/sail.py: Sail", "pySailingVLM/solver/interpolator.py: Interpolator", "pySailingVLM/variables.py"]}
{"id": "C87", "title": "Only the apparent wind matters", "statement": "Two conditions with equal heel and leeway whose apparent winds at every height differ by a factor k > 0 and whose densities differ by a factor c > 0 give runs with the same sails and hull, circulations and velocities k times as large, forces, pressures and moments (also of the keel and per sail) c k^2 times as large, and the same pressure coefficients, centre of effort, apparent wind angles and section plots. In particular wind speed and yacht speed can be multiplied together. With equal apparent wind all reported results are equal: in a wind without gradient a yacht under way has the results of one at rest in her apparent wind. In a sheared wind no wind of the program gives a yacht at rest the apparent wind of one under way.", "quantifier": "for all rigs, sails, grids and conditions for which the first run returns", "why_tests_cant": "the statement relates two runs with different inputs; the claim holds for all pairs of inputs", "anchors": ["pySailingVLM/runner/cli.py: main", "pySailingVLM/runner/sail.py: Wind", "pySailingVLM/inlet/winds.py: WindBase", "pySailingVLM/solver/vlm.py: Vlm", "pySailingVLM/results/inviscid_flow.py: InviscidFlowResults"]}
{"id": "C88", "title": "The water surface in a whole run", "statement": "If each sail has its largest camber at one fraction of the chord at all girths, then in every run that returns, with linear or with spline interpolation, the solution is symmetric about the water surface: each panel of the mirrored sails carries the circulation and pressure of the panel it is the image of and the mirror images of its velocities and forces, and at every point of the water surface the apparent wind together with the velocity induced by all sails is horizontal. This covers every run of the configuration shipped with the package, on every grid.", "quantifier": "for all rigs, valid sails with an even camber position, grids, twist modes, heel and leeway angles, winds, points of the water surface", "why_tests_cant": "symmetry of a solved linear system at all points of a plane; tests look at single runs and tolerances", "anchors": ["pySailingVLM/runner/cli.py: main", "pySailingVLM/yacht_geometry/sail_geometry.py: SailGeometry", "pySailingVLM/solver/vlm.py: Vlm", "pySailingVLM/solver/interpolator.py: Interpolator"]}
{"id": "C89", "title": "Sail data interpolated in double precision", "statement": "Computed in IEEE double precision, linear interpolation of finite girthwise data gives at every section a finite value that differs from the exact piecewise linear function, at a height within 3/2^53 of the section's exact height, by at most 12/2^53 of the largest datum (plus 1/2^1073). Equal data are reproduced exactly, and the first and last sections have exactly the first and last values. Cambers and camber positions that keep 10^-14 away from the limits of the airfoil are accepted at all sections. A camber at the limit is not always: there is a configuration whose given cambers are all in the accepted range, and which is a valid configuration in exact arithmetic, for which the program exits with status 1 since a camber interpolated between two values of 0.3 or less comes out as 0.30000000000000004.", "quantifier": "for all girths in [0,1] at least 2^-100 apart, data up to 2^100, numbers of sections up to 2^50, and all implementations of the elementary functions", "why_tests_cant": "rounding depends on every bit of the data and on the number of sections", "anchors": ["pySailingVLM/solver/interpolator.py: Interpolator", "pySailingVLM/thin_airfoil/vlm_airfoil.py: VlmAirfoil", "pySailingVLM/runner/cli.py: main"]}
{"id": "C90", "title": "The program delivers all files or touches none", "statement": "With a valid configuration, started where the results directory exists or can be made and the case file is at hand and is not one of the files to be written, the program ends in one of two ways. Either it finishes, and then the results directory holds the workbook with its three sheets, the pressure plot, the two section plots and a copy of the case file, and no other file has changed; or it raises LinAlgError or ValueError and the disk is as it was. This holds with linear and with spline interpolation, and for the configuration shipped with the package on every grid.", "quantifier": "for all disks, result and case file names, valid rigs, sails, winds, heel and leeway angles, grids and twist modes", "why_tests_cant": "exhausts the ways a whole run can end; tests run one configuration in one directory", "anchors": ["pySailingVLM/runner/cli.py: main", "pySailingVLM/results/save_utils.py: save_results_to_file", "pySailingVLM/yacht_geometry/sail_geometry.py: SailGeometry"]}
{"id": "C91", "title": "Rotations in double precision", "statement": "Computed in IEEE double precision with a sine and cosine that are accurate to 8/2^53 on [-100,100], the heel and leeway rotations of a point at most L from the origin give finite coordinates within 10^-12 L of the exact ones: points above the water are turned by the heel angle, all others by its opposite, the side being decided without error. The same holds for vectors turned without regard to the side, for turning back points that are more than 10^-12 L above or below the water, and, within 2*10^-13 L, for the rotation matrix about any axis between 2^-150 and 2^150 long by any angle of at most 8 radians.", "quantifier": "for all points, angles up to 360 degrees, L from 10^-6 to 10^6, and all implementations of the elementary functions of that accuracy", "why_tests_cant": "rounding depends on every bit of the coordinates and angles", "anchors": ["pySailingVLM/rotations/geometry_calc.py: rotation_matrix", "pySailingVLM/rotations/csys_transformations.py: CSYS_transformations"]}
{"id": "C92", "title": "Sails built in double precision", "statement": "A sail of usual dimensions (coordinates and chords of at most L metres, luff ends above the water, camber up to 0.3, draft between 0.01 and 0.9, angles up to 360 degrees, and, if it is twisted, a luff that seen along the x axis is at least l long, where L/1000 <= l <= L) is built without an error when everything is computed in IEEE double precision: in particular the test that twisting leaves the luff in place passes for both sides of the water. Every corner of the sail and of its mirror image is finite and at most 10^-9 L^2/l away from the corner of the sail built in exact arithmetic, every corner before heeling and twisting at most 10^-12 L; panels and edge flags are the same in number and order. Turning a point about a line has an error of at most 2*10^-12 L, turning a list of points of any length at most 3*10^-12 L, whichever order numpy multiplies the seven matrices in.", "quantifier": "for all sails of these dimensions, 1 to 10000 panels along the luff and along the chord, L from 0.01 to 1000, and all sine and cosine functions accurate to 8/2^53", "why_tests_cant": "rounding depends on every bit of the input, and the luff test compares rounded numbers with a tolerance", "anchors": ["pySailingVLM/yacht_geometry/sail_geometry.py: SailGeometry.__init__", "pySailingVLM/rotations/geometry_calc.py: rotate_points_around_arbitrary_axis", "pySailingVLM/solver/mesher.py: make_airfoil_mesh, discrete_segment"]}
{"id": "C93", "title": "Induced velocities in double precision", "statement": "In IEEE double precision the velocity induced by a vortex segment is finite for every point, segment and strength with coordinates up to 2^100, also on and near the segment. If both ends are at most M from the point and |r1 x r2| >= h, every coordinate is within 2*10^-14 G M^3/h^2 of the Biot-Savart law, where G bounds the strength; a ring is within 8*10^-14 G M^3/h^2. The half line behind a trailing edge is within 10^-14 G M/k^2 of the limit of longer and longer segments, when the distance to its origin exceeds its part along the wake by at least k, and the horseshoe within the sum of its parts. No such bound holds near the wake: 64 m downstream and a micrometre beside the wake no coordinate of the computed velocity is a finite number, whatever the strength.", "quantifier": "for all finite points, ends, directions and strengths; accuracy for 0.01 <= M <= 1000, h >= 0.0002, 10^-6 <= G <= 10^6, M <= 10^9 k", "why_tests_cant": "the error depends on every bit of the coordinates and grows where a test is unlikely to look", "anchors": ["pySailingVLM/solver/velocity.py: vortex_line, vortex_infinite_line, vortex_horseshoe_v2, vortex_ring, is_in_vortex_core"]}
{"id": "C94", "title": "The no-flux test in double precision", "statement": "In IEEE double precision the flow through a panel, computed by calculate_app_fs and is_no_flux_BC_satisfied, differs from the exact value for the same wind, coefficients, circulations and normal by at most 5*10^-16 (N+6)(W+N Q G), where N is the number of panels and W, Q, G bound the wind, the coefficients and the circulations. Hence circulations whose exact flow stays below 0.999*10^-12 by that margin pass the test, and those whose exact flow exceeds 1.001*10^-12 by that margin are refused with ValueError. The limit of 10^-12 is absolute: it is false that scaling the wind scales the solution in double precision, as two sheets close to each other are solved in a wind of 0.01 m/s and refused with ValueError in the same wind 1024 times as fast.", "quantifier": "for all numbers of panels up to 10000, all winds, coefficients and circulations with 10^-6 <= W, Q, G <= 10^6, all normals with coordinates up to 1.001; any elementary functions", "why_tests_cant": "whether a run is refused depends on the last bits of every coefficient", "anchors": ["pySailingVLM/solver/forces.py: is_no_flux_BC_satisfied", "pySailingVLM/solver/velocity.py: calculate_app_fs, calc_induced_velocity", "pySailingVLM/solver/vlm.py: Vlm.__post_init__"]}
{"id": "C95", "title": "The order in which the sails are listed does not change the flow", "statement": "Passing the same sails to SailSet in another order gives the same flow: if one order is solved so is the other, every panel of every sail keeps its circulation, its induced and total velocities, its force, lift, drag, pressure and pressure coefficient, the velocity induced at any point of space is the same, and so are the total force and moment, their parts in the centerline system, the centre of effort and the keel moment; the force and moment listed for each sail move with the sail. If one order is refused so is the other.", "quantifier": "for all numbers of sails, of panels along the chord and the span, all winds, densities and coordinate systems, and all permutations of the list of sails", "why_tests_cant": "the order of the panels decides which row and column of the matrix they occupy and how the flat arrays are cut into sails; tests run one order only", "anchors": ["pySailingVLM/yacht_geometry/sail_geometry.py: SailSet", "pySailingVLM/solver/vlm.py: Vlm", "pySailingVLM/solver/coefs.py: calc_velocity_coefs", "pySailingVLM/results/inviscid_flow.py: InviscidFlowResults"]}
{"id": "C96", "title": "What an accepted run in double arithmetic guarantees", "statement": "If Vlm returns a result when computed with doubles, then the winds, the normals, all influence coefficients, all circulations and the induced and total velocities at the control points are finite numbers, no area is NaN and every finite area is at least about 1e-14, and the exact flux through every panel is at most 1.001e-12 plus an explicit bound on the rounding of that flux, without any assumption on the sizes of the numbers. The forces and pressures have no such guarantee: there is a run of two sails in a wind of 4 m/s that is accepted, with a force and a pressure that are not finite.", "quantifier": "for all panels, numbers of panels along the chord and the span, winds, densities and flags, all doubles and any implementation of sine, cosine and the other elementary functions", "why_tests_cant": "infinities and NaN appear only for special positions, which no sampled run hits; a test sees the computed flux and not the exact one", "anchors": ["pySailingVLM/solver/forces.py: is_no_flux_BC_satisfied, calc_force_wrapper", "pySailingVLM/solver/velocity.py: calculate_app_fs, calc_induced_velocity", "pySailingVLM/solver/vlm.py: Vlm"]}
{"id": "C97", "title": "Rounding of the forces, pressures and totals in double arithmetic", "statement": "Computed with doubles, every finite panel force is within five roundings of rho V x (circulation span), formed exactly from the computed velocity at the centre of pressure, the computed circulations (own ring less the ring upstream) and the span vector; every finite pressure on a finite area is within nine roundings of that force along the normal by the area; a finite total force is within 5 + n roundings of the exact sum over the n panels above the water, and a finite total moment about the reference point within 8 + n roundings of the exact sum of arm x force. A rounding is 2^-53 of the sum of the absolute values of the terms; k of them are at most k times 1.12e-16 of it.", "quantifier": "for all lattices, winds, densities and reference points, any number of panels, all doubles without bound on their size, any implementation of the elementary functions", "why_tests_cant": "cancellation between large terms shows for particular geometries only; a test compares with stored doubles of the same computation", "anchors": ["pySailingVLM/solver/forces.py: calc_force_wrapper, calc_pressure, calc_moments, calc_moment_arm_in_shifted_csys", "pySailingVLM/solver/vlm.py: Vlm", "pySailingVLM/results/inviscid_flow.py: InviscidFlowResults"]}
{"id": "C98", "title": "The plot of a mesh and the moments in centreline axes", "statement": "plot_mesh draws every row of its first mesh in the first colour and the row of the same index of the second mesh in the second colour; with two axes named, or the three in their order, each axis shows the coordinate that its label names. Three axes named in another order are labelled in that order but still drawn as x, y, z, so the labels are then wrong. A call is accepted exactly when the two or three axes named are 0, 1 or 2 and the second mesh has at least as many rows as the first; otherwise KeyError or IndexError. calc_centerline_moments turns every moment by the leeway, its total is the turned total of the panels above the water (same size, same yawing moment), and on a solved flow it returns the reported centreline moments.", "quantifier": "for all meshes, axes, colours and titles, any arithmetic; for all leeway angles, moments and solved flows", "why_tests_cant": "neither function is called or tested in the project; the label mistake shows for permuted axes only", "anchors": ["pySailingVLM/solver/additional_functions.py: plot_mesh, extract_above_water_quantities", "pySailingVLM/rotations/csys_transformations.py: calc_centerline_moments", "pySailingVLM/results/inviscid_flow.py: InviscidFlowResults"]}
{"id": "C99", "title": "An accepted run in double arithmetic satisfies the physical boundary condition", "statement": "When Vlm accepts a lattice computed with doubles, the velocity made exactly from the wind, the computed circulations and the Biot-Savart law (rings, and horseshoes along the wind at the trailing edge) of the computed vortices passes through panel i at most at 1.001e-12 m/s, plus (N+5) roundings of the terms of the flux, plus e times the sum of the circulations. Every coefficient is within e = 2e-14 (4 M^3/h^2 + 2 M/k^2) of the law, for distances of at most M, parallelograms of at least h and detours from the wake of at least k; a segment in line with the point (|r1 x r2| <= 3e-5 m^2) contributes exactly nothing. In the same way the velocity at a centre of pressure, which gives the force, is within N+2 roundings and e times the circulations of the exact one without the segments in line with it.", "quantifier": "for all lattices, winds and densities, any number N of panels, any implementation of the elementary functions; distances 0.01 m <= M <= 1000 m, h >= 2e-4 m^2, k >= 1e-9 M", "why_tests_cant": "the test of the program compares its own rounded velocities; it never sees the error of the coefficients", "anchors": ["pySailingVLM/solver/vlm.py: Vlm", "pySailingVLM/solver/velocity.py: vortex_line, vortex_ring, vortex_horseshoe_v2, calculate_app_fs", "pySailingVLM/solver/coefs.py: calc_velocity_coefs", "pySailingVLM/solver/forces.py: is_no_flux_BC_satisfied, calc_force_wrapper"]}
{"id": "C100", "title": "The induced flow is free of sources and of rotation", "statement": "Outside the cores of its vortices the velocity field of a solution is a potential flow: it can be differentiated in every direction, its divergence is zero and its curl is zero, for every closed ring, for every trailing horseshoe (three sides and two half lines downwind, each panel with its own wind) and for the sum over all panels with the computed circulations, with or without a uniform wind. The velocities reported at control points and centres of pressure are values of this field plus the wind of the panel. A single segment or half line has no divergence but the curl g/(4 pi) (r2/|r2|^3 - r1/|r1|^3), or -g/(4 pi) r/|r|^3, which cancels at shared corners. On the border of a core the velocity jumps to zero and the field has no derivative.", "quantifier": "for all points strictly outside the cores and off the wakes, all corners, circulations, winds and lattices of any size", "why_tests_cant": "a finite difference cannot show an exact zero, and tests look at a few points of one lattice", "anchors": ["pySailingVLM/solver/velocity.py: vortex_line, vortex_infinite_line, vortex_ring, vortex_horseshoe_v2, calculate_app_fs", "pySailingVLM/solver/coefs.py: calc_velocity_coefs", "pySailingVLM/solver/vlm.py: Vlm"]}
{"id": "C101", "title": "Accuracy of the circulations in double arithmetic", "statement": "When Vlm accepts a lattice computed with doubles, and beta bounds the inverse of the exact influence system of that lattice (Biot-Savart law along the computed normals) in the maximum norm, there is exactly one list of circulations that lets no air through any panel, and every computed circulation is within beta*phi of it, phi being the bound of C99 on the flow through the panels (1.001e-12 m/s plus the roundings and the error of the coefficients). The velocity at a centre of pressure, which gives the force, is within the bound of C99 plus beta*phi times the sum of the induced velocities of the velocity due to the exact circulations.", "quantifier": "for all lattices, winds and densities, any number of panels, any implementation of the elementary functions, any bound beta of the inverse; distances as in C99", "why_tests_cant": "a test has no exact circulations to compare with, and the conditioning differs from one lattice to the next", "anchors": ["pySailingVLM/solver/vlm.py: Vlm", "pySailingVLM/solver/coefs.py: calc_velocity_coefs, get_gamma", "pySailingVLM/solver/velocity.py: vortex_ring, vortex_horseshoe_v2", "pySailingVLM/solver/forces.py: is_no_flux_BC_satisfied, calc_force_wrapper"]}
{"id": "C102", "title": "The lattice in double arithmetic", "statement": "When the corners of the panels, computed with doubles, are within d of the exact corners (all of them at most L from the origin, L between 1 cm and 1 km, d at most L/100), the lattice calculate_vlm_variables builds from them is the exact lattice up to stated distances: control points and centres of pressure within d + 4e-15 L of the middle of the panel at three quarters and one quarter of its chord, bound vortices within d + 3e-15 L, aft corners of the rings within 1.5 d + 3e-15 L of those of the panel behind or, at the trailing edge, of the panel itself, areas within 9 d L + 3e-14 L^2, and normals within 1.5e-14 + (17 d L + 5e-14 L^2)/h of the unit normal of a panel whose diagonals have a cross product of at least h. For sails of the usual measures d is the bound of C92 and L seven times the size of the sail.", "quantifier": "for all lists of panels and flags, any numbers of panels, any implementation of the elementary functions (accurate ones for the sails themselves)", "why_tests_cant": "a test compares with a second floating-point computation at chosen panels", "anchors": ["pySailingVLM/solver/coefs.py: calculate_vlm_variables", "pySailingVLM/solver/panels.py: get_panels_area", "pySailingVLM/solver/vlm.py: Vlm", "pySailingVLM/yacht_geometry/sail_geometry.py: SailGeometry, SailSet"]}
{"id": "C103", "title": "Accuracy of the forces in double arithmetic", "statement": "When Vlm accepts a lattice computed with doubles, whose exact influence system has an inverse bounded by beta, every computed force is within a stated distance of the force that the law of Kutta and Joukowsky gives for the one exact list of circulations and the velocity they induce by the law of Biot and Savart: five roundings of its terms plus rho*S*(2*beta*phi*W + (B + 2*beta*phi)*eps), W bounding the velocities at the centres of pressure, B the circulations of the bound vortices, S their lengths and eps the error of the velocities of C101. The reported total force of the n panels above the water is within n times that distance (with n more roundings) of the sum of the exact forces, and the reported total moment is likewise close to the sum of the moments of the exact forces about the reference point, the distance growing with the length of the arms.", "quantifier": "for all lattices, winds and densities, any number of panels, any implementation of the elementary functions, any beta; distances as in C99", "why_tests_cant": "a test has no exact solution to compare with; the bound is for every lattice", "anchors": ["pySailingVLM/solver/forces.py: calc_force_wrapper", "pySailingVLM/solver/vlm.py: Vlm", "pySailingVLM/solver/coefs.py: calc_velocity_coefs, get_gamma", "pySailingVLM/results/inviscid_flow.py: InviscidFlowResults"]}
{"id": "C104", "title": "Accuracy of the apparent wind in double arithmetic", "statement": "With doubles and a library whose sine, cosine, logarithm and power are within eight units in the last place, the flat, logarithmic and power-law profiles give at every height of the usual size a finite true wind within 2e-14*S of the exact one, and an apparent wind within 2e-14*(S + G) of the exact sum of the true wind and the boat speed; S bounds the true wind speed at that height (40 T for the logarithmic profile) and G the boat speed. InletConditions does so at every control point, at the height |z|, for points above and below the water alike. Where the exact apparent wind has the speed N and comes from ahead of the beam (less than 90 degrees off the bow, by a margin of 1.2e-13*(S + G) in its forward component) and the arctangent is as accurate, the apparent wind angle in degrees is finite and within 1e-13 + 2.4e-12*(S + G)/N of the exact one. The report at the reference height has the same accuracy, and its angle over the water is within 1e-13 more of the exact angle minus the leeway.", "quantifier": "for all winds (direction up to 360 degrees, speeds up to 1000), all three profiles with parameters of the usual size, all lists of control points; any library that is accurate in this sense", "why_tests_cant": "a test compares with values computed in the same arithmetic and at few heights; the bound holds at every height of every profile", "anchors": ["pySailingVLM/inlet/winds.py: LogWindProfile, ExpWindProfile, FlatWindProfile, length_to_xyz_vector, get_app_infs_at_h", "pySailingVLM/inlet/inlet_conditions.py: InletConditions"]}
{"id": "C105", "title": "Accuracy of the inflow at the panels in double arithmetic", "statement": "When the panels given to Vlm, computed with doubles, are within d of exact panels, the inflow used for every panel is within 2e-14*(2*S + G) + 16*r*S of the exact apparent wind at the exact height of that panel: the height above or below the water of the point a quarter chord behind its leading edge. S bounds the true wind there, G the boat speed, and r is the uncertainty d + 4e-15*L of the height divided by the height from which the profile counts. In particular a moved height changes a power law with an exponent up to 4 by at most 16 r of its value, and the flat profile not at all.", "quantifier": "for all panels, winds and profiles of the usual size, any number of panels, any distance d up to a hundredth of the size L, any accurate library", "why_tests_cant": "a test cannot separate the error of the height from that of the profile; the bound covers every profile and every lattice", "anchors": ["pySailingVLM/inlet/inlet_conditions.py: InletConditions", "pySailingVLM/inlet/winds.py: get_true_wind_speed_at_h, get_app_infs_at_h", "pySailingVLM/solver/vlm.py: Vlm", "pySailingVLM/solver/coefs.py: calculate_vlm_variables"]}
