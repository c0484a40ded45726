# Formal model of pySailingVLM in Rocq (Coq 8.16.1)

## 1. What is trusted

* Coq's kernel (and `vm_compute`, which the validation file uses).
* The axioms that `Print Assumptions` lists (section 6).  They all come from Coq's
  standard library (classical real numbers).  No axiom, parameter or
  unproved obligation is added here.  `Validation.v` loads the library's primitive floats
  and 63-bit integers, whose declarations are axioms of the library; no theorem of the
  manifest depends on them.  Coquelicot (integrals in C29-C35) and ssreflect
  are loaded by some files; they add no axiom.
* The correspondence between the Gallina definitions in `M_*.v` and the Python in
  /repo.  Every definition cites the lines it models.  `Validation.v` runs the
  model on IEEE doubles against numbers recorded in the repository's own tests.

## 2. Architecture

* `Num.v`: class `Num F` (and in `M_Plots.v` class `Rounding F`, ceil and int) - the operations the Python code uses on numbers
  (`+ - * / sqrt sin cos arcsin arctan arctan2 log pow < <= == isnan`, integer
  conversion).  The class has *no laws*.
* `PyBase.v`: Python exceptions as values (`res A := Ok a | Raise e`), Python
  sequence indexing with negative indices, `np.array_split`, `np.linspace`, ...
* `M_*.v`: the model, function by function, polymorphic over `Num F`.
* `RNum.v`: the instance at Coq's real numbers.  Numerical theorems are about
  this instance: they are statements about the exact-arithmetic meaning of the
  program.  Structural theorems (indices, lengths, control flow) are proved for every
  instance, so in particular for IEEE doubles.
* `CNum.v`: the instance at *checked* real numbers (`option R`: division by zero,
  square root of a negative number, ... give `None`).  It is used to state that the
  program does or does not leave the domain of its operations.
* `Spec.v`: definitions used to state properties, written directly with Coq's
  real numbers and lists, independent of the model's helpers.
* `L_*.v`: lemmas.  `P_*.v`: the theorems of each property, their concrete cases and a few
  definitions used only to state one property.
* `M_Vlm.v` splits `Vlm.__post_init__` at the call of the linear solver (`vlm_solve`) so that
  theorems about the solver and about the forces can be stated separately.
* `seeded/`: edits of the model used to test the theorems (`mutants*.py`), results in `LOG.jsonl`;
  `tools/mutate.py` runs them, `tools/mutlog.py` logs them.
* `Double.v`: the instance at IEEE double precision numbers (Flocq's
  `binary_float 53 1024`, rounding to nearest even).  The elementary functions are
  arbitrary, since numpy does not fix their rounding.  C89, C91 to C94, C96 and C97 are about this instance.
* `Validation.v`: the instance at Coq's primitive floats and executable checks.

## 3. What is modelled

| Python | Model | Remarks |
|---|---|---|
| rotations/geometry_calc.py | M_Rotations | all three functions; scipy's `Rotation.from_rotvec` as the quaternion formula |
| rotations/csys_transformations.py | M_Csys, M_SelfCheck | the self checks against scipy are in M_SelfCheck |
| thin_airfoil/vlm_airfoil.py | M_Airfoil | all but plotting |
| solver/mesher.py, solver/panels.py | M_Mesher, M_Panels | all but the plotting helper |
| yacht_geometry/sail_factory.py, sail_geometry.py | M_Sail | all but DataFrame formatting |
| solver/interpolator.py | M_Interp, M_Spline | linear exactly; in the runs scipy's spline is a function argument, so that theorems hold for any; M_Spline models it (not-a-knot cubic spline, solved for second derivatives instead of B-spline coefficients) and C85, C86 are about that model |
| inlet/winds.py, inlet/inlet_conditions.py | M_Winds | all but plotting |
| solver/velocity.py | M_Velocity | all |
| solver/coefs.py | M_Coefs, M_Solve | all; `np.linalg.solve` is modelled by Gaussian elimination with partial pivoting |
| solver/forces.py | M_Forces | all |
| solver/vlm.py | M_Vlm | the whole `__post_init__` |
| solver/additional_functions.py, results/* | M_Results, M_MeshPlot | the plot of a mesh as data; numbers and tables (dictionaries, their order, duplicates) |
| results/save_utils.py, runner/cli.py main | M_Output | the workbook with its rounding and cell colours, the files written and their order; `%.nf` formatting is a function argument; a small disk model |
| runner/aircraft.py | M_Runner | the rectangular and swept wing |
| yacht_geometry/hull_geometry.py | M_Hull | all |
| solver/panels_plotter.py | M_Plots, M_Runner | the data drawn by plot_cp, display_winds, display_CE_CLR, plot_section_coeff; the three-dimensional picture as data (colours as numbers, water, axes, hull lines, title) |
| runner/* | M_Runner | validation, module lookup, exit codes, which data goes to which plot |

Not modelled: what matplotlib and bokeh make of the data given to them, column widths and number formats of Excel, Jupyter helpers, numba
compilation, warnings, file system errors other than a
missing file, a missing directory and a copy onto itself.

Rounding: theorems about numbers are about exact real arithmetic unless they name the instance
`Double` (C89, C91 to C94, C96, C97, C99, C101 to C105: refusals, finiteness and error bounds of the wind, rotations, airfoils, sails, the lattice, induced
velocities, the no-flux test, the circulations, the forces and their totals); structural theorems hold for any arithmetic.
The linear solver is covered through the residual of an accepted run (C96, C99) and the conditioning of the
exact system (C101); its rounding errors are not followed step by step.
Error bounds that involve sine, cosine, logarithm, power or arctangent take the accuracy of these functions as hypotheses of the
theorems (`accurate`, `accurate_ln`, `accurate_pow`, `accurate_atan2`: eight units in the last place), not as axioms. A library
that meets them is constructed (`ideal`, `ideal_wind`, `ideal_angle`), so the hypotheses can be satisfied together.

## 4. Plan per property

(`refuted` = the unrestricted claim is false of the faithful model; a theorem
exhibits the failing case and another proves the part that does hold.)

| Id | Modelled by | Plan |
|---|---|---|
| C01 | M_Rotations.rotation_matrix at R | unfold, half-angle formulas, ring |
| C02 | same | from C01 and angle addition |
| C03 | M_Rotations.rotate_points_around_arbitrary_axis (4x4 chain) | reduce chain to Rodrigues; sqrt identities |
| C04 | M_Csys | case split on sign; refuted witness |
| C05 | M_Csys | sign split; refuted witness at z=0 |
| C06 | M_Csys | orthogonality |
| C07 | M_Csys, M_Results, M_Winds | what the transformation and the columns do, exactly; the documented meaning is refuted |
| C08 | M_Airfoil, any Num | boolean case analysis |
| C09 | M_Airfoil at R | polynomial inequalities; refuted p=0 |
| C10 | M_Airfoil at R | derivable_pt_lim / Coquelicot is_derive |
| C11 | M_Airfoil at R | polynomial bounds after sqrt substitution |
| C12 | M_Mesher | list induction |
| C13 | M_Mesher + M_Airfoil | index computation |
| C14 | M_Panels, any Num | div/mod index arithmetic |
| C15 | M_Panels | vector algebra; refuted quad |
| C16 | M_Panels | C12 twice |
| C17 | M_Sail | C05 + reversal of meshes; refuted witness |
| C18 | M_Sail | C03 |
| C19 | M_Sail | C03; refuted modes |
| C20 | M_Sail, any Num | lists |
| C21, C22 | M_Sail | trigonometry |
| C23, C24 | M_Interp | list induction |
| C25-C27 | M_Winds | analysis |
| C28 | M_Runner | computation; refuted witness |
| C29-C35 | M_Velocity at R and CNum | vector algebra, Coquelicot's integral, limits |
| C36-C38 | M_Coefs | index arithmetic, vector algebra |
| C39 | M_Solve | induction over the elimination |
| C40 | M_Vlm | C39 + linearity of velocities in circulation |
| C41 | M_Vlm | C32 mirror law + uniqueness from C39 |
| C42 | M_Vlm | homogeneity + uniqueness |
| C43-C46 | M_Forces | index arithmetic, vector algebra |
| C47 | M_Forces | vector algebra |
| C48 - C52 | M_Results | lists, vector algebra |
| C53, C54 | M_Runner | computation |
| C55, C56 | M_Runner, M_Vlm, P_Induced | computation; symmetry |
| C57-C60 | M_Results, M_Coefs, M_Vlm | analysis, symmetry |
| C61 | M_Results | dictionary lookup; totals from C48 |
| C62 | M_Runner | which curve carries which sail's name; refuted for a main sail alone |
| C63 | M_Hull | foil of C08-C11, C05; refuted symmetry |
| C64 | M_Plots | layout of the flat panels = layout of the panels |
| C65 | M_Plots, any Num | rows of an equal split; colours by div/mod |
| C66 | M_Plots | vector algebra |
| C67 | M_Runner | valid input: a run ends with complete results or with a named exception |
| C68 | M_Runner, M_Sail, M_Csys, M_Vlm, M_Results | every function commutes with the reflection y -> -y (as an equation between results, exceptions included, up to the solver); the solver under orientation reversing rigid maps (L_Tack) |
| C69 | M_Rotations | quaternion of the rotation vector against Rodrigues' formula (half angles, nsatz); 0/0 on the checked reals |
| C70 | M_Output, P_Output | The disk is a map from paths to contents; every action of `main` after reading the variables is modelled in its order (workbook, copy, display, plots) and may raise. Proved by showing that after a finished computation every later step but the copy succeeds (the figure only if some panel edge has its middle off the water, C76), then reading off the final disk. Paths are strings: no links, no permissions, no full disk. |
| C71 | M_Output, P_Output2 | The table is a list of named numbers, sorted as pandas does; read with the specification's `value_of`; lengths, directions and the power law are stated with the reals' own functions. |
| C72 | M_Output, P_Output2 | Conditional formats are rules with ranges and conditions; the shown colour is that of the first added rule that covers the cell and holds (xlsxwriter's priority). The label is specified by containment of COG or COW in the name. |
| C73 | M_Output, M_Results, P_Output2 | The float formats of `to_excel` (8 and 2 decimals) are an arbitrary function with the rounding error bound; proved from the exact sums (C48), the row theorems (C50, C61) and the triangle inequality. |
| C74 | M_Results, P_Output2 | The dictionaries are modelled entry by entry (a repeated key replaces the value), the sort of `from_records` as a stable insertion sort by code points; the names are stated as plain lists. `Validation.v` checks the same order on the recorded files. |
| C75 | M_Plots, P_Scene, P_Tables | The colour map is a number in [0,1] per panel; minimum and maximum by induction, order by monotonicity of the scale. |
| C76 | M_Plots (class Rounding for ceil and int), P_Scene, P_Induced | Water and axes from the ends of range; ceil and int are the functions of the reals. The factor 1.1 is the exact decimal. |
| C77 | M_Velocity, M_Coefs, M_Vlm, M_Winds | The influence of a ring is homogeneous of degree -1 outside the cores, so the scaled circulations solve the scaled equations; the solution is unique. For runs every step of the geometry (mesh, heel, twist about the luff, hull) commutes with the change of scale; the spline is assumed homogeneous, which C86_homogeneous proves of its model. |
| C78 | M_Runner (Aircraft), M_Coefs, M_Forces | The influence of a ring is homogeneous in the lengths outside the cores and linear in the circulation; the solution of the regular system is unique. Definitions: panels multiplied by k corner by corner. |
| C79 | M_SelfCheck, P_SelfCheck | scipy's branch for small angles against the alternating series of the sine; the error of the half-angle sine bounds the error of every entry. |
| C80 | L_Lift, L_Lift2, P_Lift | lemmas that lift every function of the solver to checked numbers, elimination included; the converse uses that sums, products and the flux check are strict in undefined numbers; the counterexample bounds the coupling of two distant panels by C30 |
| C81 | L_LiftGeo, P_LiftGeo | The model is run on checked real numbers; every function of the geometry gives the checked image of its result on real numbers (`L_LiftGeo.v`), and the rotation about a line along x gives undefined points only, which the comparison of the luff refuses. |
| C82 | L_LiftRun, P_LiftRun | The run of the model on checked numbers is followed function by function; every function maps defined arguments to the image of its real result, except the two quotients of the statement. `C82_case` runs a complete yacht. |
| C83 | L_LiftPlot, P_LiftPlot | The averages over strips have positive areas as weights; the only quotient that can vanish is the average over the sail by which a curve is divided, which is zero exactly if no panel bears the force. |
| C84 | L_Set, P_Unloaded | Regular systems have the zero solution exactly for a zero right hand side; the corners of an uncambered untwisted sail lie in one plane through the luff containing the forward direction, so that every panel normal is perpendicular to it. The example solves the two panel rig head to wind exactly. |
| C85 | M_Spline, L_Spline, P_Spline | The spline is determined by its second derivatives at the girths, which solve a linear system; that system is regular because after elimination of the two end conditions it is diagonally dominant. Pieces are compared with an independent specification by values, slopes and bends of cubics (shown to be derivatives). |
| C86 | M_Spline, M_Interp, M_Runner, P_SplineRun | Linear interpolation at the stations returns the data, so the spline run is transported to a linear run and C67 applies. The exit with status 1 follows section by section from the check of the airfoil. |
| C87 | M_Winds, M_Vlm, M_Results, M_Runner, P_Apparent | The scaling of the solver (C42) for an arbitrary pair of winds; the result tables are linear in the forces, the centre of effort and the section coefficients are homogeneous of degree 0. |
| C88 | M_Interp, M_Spline, M_Sail, M_Vlm, M_Runner, P_Water | Linear and spline interpolation of equal positions give equal positions (C23, C86); then C17 and C41 apply to the sail set of the run. |
| C89 | Double, M_Interp, M_Airfoil, M_Runner, L_Double, P_Double, P_DoubleRun | The model is run with a fourth instance of its number class, `Double`: Flocq's binary_float 53 1024, rounding to nearest even, with arbitrary functions in place of sin, cos, ln and the other elementary functions (numpy leaves their rounding open). Assumed: np.interp evaluates slope * (x - x_j) + y_j without fused multiply-add. Errors are bounded with Flocq's relative error lemmas; the refutation computes the first eight sections inside the kernel. |
| C90 | M_Runner, M_Plots, M_Output, P_Program | Combines C67 and C86 (the computation), C70 (the files). The picture needs an edge off the water; the first luff edge of a valid sail has its middle at cos(heel) times a positive height. |
| C91 | Double, M_Rotations, M_Csys, L_Near, L_NearRot, P_DoubleRot | The model is run with the instance `Double`. Every operation is followed by an error bound relative to a scale (L_Near); pi is bounded with Machin's formula. Assumed: products of a matrix and a vector are summed from left to right without fused multiply-add; sine and cosine are any functions within 8 units of 2^-53, and one such pair is given, so that the hypothesis can be met. |
| C92 | Double, M_Sail, M_Mesher, M_Airfoil, M_Rotations, L_NearLine, L_NearMesh, L_NearSail, L_NearSail2, L_NearSail3, P_DoubleSail | The model is run with the instance `Double` and with real numbers on the values of the same input; corners are compared. Rounding errors are followed through the rotation about a line (both orders numpy's multi_dot uses: matrices applied one after the other to up to four points, as in the loop over different twists; matrices multiplied with each other first when more points share one twist), the section mesh, heeling and twisting; the exact rotation is shown to be Lipschitz in the ends of its axis. Assumed: products of matrices are summed from left to right without fused multiply-add, the power 2 of the camber formula is a rounded product. |
| C93 | Double, M_Velocity, L_NearVel, P_DoubleVel | The functions of velocity.py are run with the instance `Double` and compared with the law of Biot and Savart (`Spec.biot_savart`) and its limit for a half line. Finiteness follows from bounds of the form 2^b for each operation and from the core test, which keeps the divisors away from 0. Assumed: scalar products and norms are summed from left to right without fused multiply-add (numba calls BLAS for them, whose order is not fixed). |
| C94 | Double, M_Velocity, M_Forces, M_Vlm, P_DoubleFlux | The functions are run with the instance `Double`. The exact flow is the wind plus the scaled coefficients, summed in the reals. Induction over the rings with the error bounds of L_Near. Assumed: sums run from left to right without fused multiply-add; LAPACK may order the elimination of the witness differently. |
| C95 | M_Sail, M_Vlm, M_Results, L_DemoTwo, P_Order | `shuffle` is a bijection with its inverse; `regrouped` says that list l' holds at group g what l holds at group p g. The solution of the reordered system is written down and recognised by uniqueness (regular matrix); sums are permuted. Case: L_DemoTwo shows by bounds on far vortices that the matrix of two sails has a dominant diagonal. |
| C96 | Double, M_Vlm, M_Forces, M_Velocity, L_Accept, P_DoubleAccept | If a sum or product is finite, so are its operands; the predicate `near_of k x X A` (k roundings, terms of total size A) is carried along the computation of the flux, using only that the result is finite. `exact_flux` as in C94. Counterexample by computation for all elementary functions that are exact at 0: the centre of pressure of the second sail lies on the edge of the wake of the first, its control point does not. |
| C97 | Double, M_Forces, M_Vlm, M_Results, L_Accept2, P_DoubleForce | `near_of` of C96 extended to products of two computed numbers, quotients, vectors, cross products and sums of any length; finiteness of the result gives finiteness of all operands. `net_of` states which circulations act, `force_terms` and `arm_terms` the absolute values of the terms. Case: a mirrored pair of panels solved for every library exact at 0. |
| C98 | M_MeshPlot, M_Results, P_MeshPlot | The picture is modelled by its labels and curves; `runs_through` states that each axis shows the coordinate its label names. Moments: the rotation is linear, hence commutes with the sum over the first half. |
| C99 | Double, M_Vlm, M_Coefs, M_Velocity, L_NearVel, P_DoubleTrue | Joins C93 (one vortex), C96 (the test) and the running errors: `induced` gives the exact velocity of a ring from `biot_savart` and `half_line` of the specification, `piece` decides between a segment beside the point and one in line with it. Case: a mirrored pair of panels, at a control point and at a centre of pressure, for every library exact at 0. |
| C100 | M_Velocity, M_Coefs, M_Vlm, P_Potential | `gradient` is the derivative in every direction, `div_curl` reads divergence and curl from the three gradients. Each vortex is a scalar times a rigid rotation about it, whose curl is found from the triple product; the border case is a jump. Cases: a square ring, and the mirrored pair of panels seen from upwind. |
| C101 | Double, M_Vlm, M_Coefs, M_Velocity, P_DoubleTrue, P_DoubleSolve | The accepted flow of C99 is a residual of the exact system; `stable` turns it into an error of the solution whatever the solver did. Existence and uniqueness come from the elimination of L_Solve over the reals. Case: the mirrored pair of C99 with beta = 5 (the exact coefficients enclosed by the computed ones), error at most 5e-8 for circulations of size up to 12. |
| C102 | Double, M_Coefs, M_Panels, M_Vlm, M_Sail, P_DoubleSail, P_DoubleLattice | Middle, edges, diagonals and triangles of the exact panel are written with slerp and cross products of the specification. Rounding through the near calculus of L_NearVel, exact displacement through Lipschitz bounds of slerp, cross product and normalisation. Which panel is behind comes from vars_at, for any arithmetic. Exact corners of usual sails are at most 7 L (rotation about the luff, heel and mirror keep norms). Cases: two panels displaced by half a millimetre, and the heeled and twisted sail of C92. |
| C103 | Double, M_Vlm, M_Forces, M_Results, P_DoubleForce, P_DoubleSolve, P_DoubleExact, P_DoubleExact2 | Joins C97 (roundings of the force), C101 (circulations and velocities). The exact force names no computed velocity or circulation: it uses the exact list of circulations, unique by C101. Cases: the mirrored pair, computed force and total within 1e-4 N of the exact ones, the lateral force being at least 10 N. |
| C104 | Double, M_Winds, L_NearRot, P_DoubleWind, P_DoubleAngle | The exact wind is written with the reals' logarithm and power. The error of the argument of the logarithm is absolute in its value (ln (1 + d)); the power multiplies it by the exponent. Profiles: heights 1 mm to 100 m, roughness 0.1 mm to 1 m, reference height at least twice the roughness; exponent up to 4. Case: a library with floors of the exact functions, a power law of exponent 1/8 above a water level of -1 m and a logarithmic profile, at two points and the mirror image of one. The angle (P_DoubleAngle): the exact one is given by the polar form of the exact wind; the angle between two close winds is at most the quotient of their cross and dot products. |
| C105 | Double, M_Winds, M_Panels, M_Vlm, P_DoubleLattice, P_DoubleWind, P_DoubleInflow | Joins C102 (control points) and C104 (wind at a computed height). C105_height is about real numbers: the relative change of the profile with the height. Case: the pair of panels of C97 and the winds of C104; for the logarithmic profile the inflow is within 2e-10 m/s of the exact one. |

## 6. Axioms per theorem

Generated by `tools/gen_axioms.py` from `Print Assumptions`; all axioms are Coq's standard library's.

**No axioms (closed under the global context)**

C08_parameters_any_number_system, C14_panels_tile_the_mesh, C19_modes_have_no_effect, C20_sail_set_layout, C23_rejections, C24_failures, C24_mirrored, C24_sections, C28_complete, C28_exponential_unchecked, C28_failures, C28_flat_over_checked, C28_logarithmic, C28_unknown_name, C36_lattice_never_fails, C37_watertight, C43_net_circulation, C44_other_names, C51_empty, C53_swapped, C54_dvars, C54_refuted, C54_shadowed, C54_status, C54_used, C55_checked, C55_chords_fail, C55_chords_unchecked, C55_default_twist, C55_defaults, C55_missing_sail, C55_unknown_name, C62_third_sail, C65_arrows, C65_other_numbers, C98_accepts, C98_drawn

**`ClassicalDedekindReals.sig_forall_dec`, `FunctionalExtensionality.functional_extensionality_dep`**

C97_relative, C98_order_refuted

**`ClassicalDedekindReals.sig_forall_dec`, `FunctionalExtensionality.functional_extensionality_dep`, `ClassicalDedekindReals.sig_not_dec`**

C58_slope

**`ClassicalDedekindReals.sig_forall_dec`, `FunctionalExtensionality.functional_extensionality_dep`, `ClassicalDedekindReals.sig_not_dec`, `Classical_Prop.classic`**

C01_rotation_matrix, C02_rotations_compose, C03_rotation_about_line, C04_reverse_undoes_rotation, C04_reverse_undoes_rotation_refuted, C05_mirror_image, C05_mirror_image_on_plane, C05_mirror_image_refuted, C06_rigid, C07_centreline, C07_centreline_refuted, C07_columns, C08_parameters_validated, C09_camber_line, C09_camber_line_refuted, C10_slope_is_derivative, C100_border_refuted, C100_flow, C100_half_line, C100_horseshoe, C100_ring, C100_segment, C101_circulations, C101_velocity, C102_area, C102_lattice, C102_normal, C102_points, C102_run, C102_sails, C102_usual, C103_force, C103_moment, C103_total, C104_angle, C104_apparent, C104_inlet, C104_report, C105_height, C105_inflow, C105_run, C11_thickness, C12_discrete_segment, C13_airfoil_mesh, C15_panel_area, C15_panel_area_refuted, C16_wing_mesh, C17_mirror_image, C17_mirror_image_refuted, C18_luff_fixed, C19_documented_modes_refuted, C19_sections_rotated, C21_main_mounting, C22_jib_mounting, C22_jib_tack, C22_parallel_refuted, C23_affine, C23_between_neighbours, C23_ends, C23_piecewise_linear, C23_through_the_data, C25_direction, C25_exponential, C25_exponential_defined, C25_flat, C25_logarithmic, C25_report_refuted, C26_apparent_wind, C26_mirror, C27_all_angles_refuted, C27_angle, C27_other_side_wrong, C28_missing_data_refuted, C28_unknown_name_refuted, C29_biot_savart, C30_vortex_line_finite, C31_split_segment, C32_frame_independence, C33_semi_infinite_limit, C34_horseshoe_is_a_ring_closed_at_infinity, C35_finite_everywhere_refuted, C35_wake_singularity, C36_lattice_geometry, C37_trailing_edge, C38_wing_lattice, C39_linear_solver, C40_flux_check, C40_no_flux, C41_mirror_solution, C41_sail_sets, C42_density, C42_inflow, C42_speed, C43_telescope, C44_force_splits, C44_vlm, C45_pressure, C45_pressure_coefficient, C45_vlm, C46_moments, C46_shift, C47_any_moment, C47_recovers, C47_reported, C48_run, C48_totals, C49_refuted, C49_total_moment, C50_lengths, C50_rows, C51_girths, C52_between, C52_plot_data, C52_sections, C52_uniform, C53_refuted, C53_run, C55_base_needed, C55_default_sails, C55_refuted, C55_twist_values, C56_no_lift, C56_refuted, C56_symmetry, C57_finite_sail_angle, C57_refuted, C58_coefficients, C58_lift, C59_frame_independence, C59_turned, C60_complete_results, C60_failures, C61_overall_rows, C61_sail_rows, C61_same_name, C62_labels, C62_main_alone, C62_refuted, C62_right, C63_ends, C63_lines, C63_refuted, C63_sides, C64_flat_panels, C64_polygons, C65_run, C66_arrows, C66_run, C67_run, C68_camber_rejected, C68_run, C68_solver, C69_line_along_x, C69_origin_axis, C70_case_copy_refuted, C70_case_file, C70_files, C70_nothing_on_error, C70_stopped, C71_exponential, C71_placeholder, C71_profiles_refuted, C71_reference_speed, C72_all_labelled, C72_components, C72_inlet, C72_integrals, C72_own_label_refuted, C72_summary, C73_workbook, C74_columns, C74_rows, C75_colours, C75_refuted, C75_rings, C75_sailopt, C76_induced, C76_low, C76_parts, C76_picture, C76_refuted, C76_tall, C77_plots, C77_refuted, C77_run, C77_solver, C78_refuted, C78_similar, C79_detects, C79_other_angle, C79_passes, C79_scipy, C80_accepted, C80_defined, C80_forces_defined_refuted, C80_result, C81_defined, C81_errors, C81_luff, C81_mounting, C82_defined, C82_returned, C82_tables, C83_data, C83_plots, C84_defined_refuted, C84_flat, C84_head_to_wind, C84_reported, C84_solver, C85_between_neighbours_refuted, C85_cubic_data, C85_linear, C85_refused, C85_spline, C85_through_the_data, C86_camber_refuted, C86_constant, C86_few_girths, C86_homogeneous, C86_range_exit, C86_resampled, C86_run, C86_shipped, C87_at_rest, C87_at_rest_refuted, C87_run, C87_same_apparent, C87_stronger, C88_run, C88_shipped, C88_spline, C89_constant, C89_ends, C89_error, C89_margin, C89_range_exit_refuted, C90_program, C90_shipped, C90_spline, C91_matrix, C91_reverse, C91_rotate, C91_vector, C92_line, C92_points, C92_sail, C93_finite, C93_half_line, C93_horseshoe, C93_ring, C93_segment, C93_wake_refuted, C94_accepts, C94_flux, C94_refuses, C94_scale_refuted, C95_order, C95_refusals, C95_results, C95_sail_sets, C95_solver, C96_areas, C96_run, C96_test, C96_wake_refuted, C97_force, C97_moment, C97_pressure, C97_total, C98_moments, C98_reported, C99_coefficient, C99_no_flux, C99_velocity
