{
 "claims": [
  {
   "property": "C01",
   "status": "proved",
   "theorems": [
    "C01_node_compare"
   ],
   "note": "exact reals"
  },
  {
   "property": "C02",
   "status": "proved",
   "theorems": [
    "C02_mesh_nodes",
    "C02_mesh_nodes_merge"
   ],
   "note": "arbitrary hash function, arbitrary history of calls"
  },
  {
   "property": "C03",
   "status": "partial",
   "theorems": [
    "C03_equal_nodes_once_refuted",
    "C03_equal_nodes_once_partial"
   ],
   "note": "false in general: comparison tolerance and hash rounding disagree (nodes 0.4e-9 and 0.6e-9); proved when coincident nodes round to the same position"
  },
  {
   "property": "C04",
   "status": "proved",
   "theorems": [
    "C04_renumber_nodes",
    "C04_renumber_elements"
   ],
   "note": ""
  },
  {
   "property": "C05",
   "status": "partial",
   "theorems": [
    "C05_elements_once_partial",
    "C05_elements_once_refuted",
    "C05_attach_part"
   ],
   "note": "elements with the nodes in the same order are stored once; a reversed element is stored twice (refuted)"
  },
  {
   "property": "C06",
   "status": "proved",
   "theorems": [
    "C06_dof_numbering"
   ],
   "note": ""
  },
  {
   "property": "C07",
   "status": "proved",
   "theorems": [
    "C07_trim_consistent",
    "C07_trim_history"
   ],
   "note": "Also for any history of trims."
  },
  {
   "property": "C08",
   "status": "partial",
   "theorems": [
    "C08_trimmed_set_partial",
    "C08_trimmed_set_disjoint",
    "C08_all_constraints_refuted"
   ],
   "note": "Proved for all constraint lists with 'last constraint wins'; the English claim holds when no node is in two constraints; refuted for a node clamped by one constraint and released by a later one."
  },
  {
   "property": "C09",
   "status": "proved",
   "theorems": [
    "C09_nodal_results",
    "C09_element_force",
    "C09_wrong_columns"
   ],
   "note": ""
  },
  {
   "property": "C10",
   "status": "partial",
   "theorems": [
    "C10_nodal_force_partial",
    "C10_nodal_force_zero_refuted"
   ],
   "note": "active directions proved; inactive directions report uninitialised memory (np.empty)"
  },
  {
   "property": "C11",
   "status": "proved",
   "theorems": [
    "C11_reshape"
   ],
   "note": ""
  },
  {
   "property": "C12",
   "status": "proved",
   "theorems": [
    "C12_assembly",
    "C12_assembly_order",
    "C12_assembly_symmetric_psd"
   ],
   "note": ""
  },
  {
   "property": "C13",
   "status": "proved",
   "theorems": [
    "C13_delete",
    "C13_positions",
    "C13_delete_order_free",
    "C13_delete_out_of_range",
    "C13_delete_vector"
   ],
   "note": ""
  },
  {
   "property": "C14",
   "status": "proved",
   "theorems": [
    "C14_rotation_isometry",
    "C14_rotation_value",
    "C14_rotation_rows"
   ],
   "note": ""
  },
  {
   "property": "C15",
   "status": "partial",
   "theorems": [
    "C15_point_angle",
    "C15_list_angle_partial",
    "C15_near_vertical_refuted"
   ],
   "note": "Proved for the single-point version and for the list version unless the second point lies between 0 and 1e-8 to the left of the first; in that range the list version returns the opposite direction (refuted with a witness)."
  },
  {
   "property": "C16",
   "status": "partial",
   "theorems": [
    "C16_rod_direction",
    "C16_rod_axis_partial",
    "C16_inclined_rod_refuted"
   ],
   "note": "Holds for horizontal and vertical rods. For inclined rods the code resists along the mirrored direction; refuted with a rod at 45 degrees."
  },
  {
   "property": "C17",
   "status": "proved",
   "theorems": [
    "C17_beam_stiffness",
    "C17_shear_factor",
    "C17_beam_no_damping"
   ],
   "note": ""
  },
  {
   "property": "C18",
   "status": "partial",
   "theorems": [
    "C18_semi_rigid_partial",
    "C18_energy",
    "C18_stiff_limit",
    "C18_rigid_rotation_refuted"
   ],
   "note": "Everything except the rigid rotation for springs combined with shear deformation, which stores energy (refuted)."
  },
  {
   "property": "C19",
   "status": "proved",
   "theorems": [
    "C19_mass_symmetric_psd",
    "C19_rigid_energy",
    "C19_mass_per_metre"
   ],
   "note": ""
  },
  {
   "property": "C20",
   "status": "proved",
   "theorems": [
    "C20_shape_functions"
   ],
   "note": ""
  },
  {
   "property": "C21",
   "status": "partial",
   "theorems": [
    "C21_scaling_partial",
    "C21_scaling_gap",
    "C21_scaling_refuted",
    "C21_constant_curvature_refuted"
   ],
   "note": "Holds for the displacement functions, and without shear deformation for all. With shear deformation the shear term of the rotation functions lacks a factor length (refuted)."
  },
  {
   "property": "C22",
   "status": "partial",
   "theorems": [
    "C22_internal_forces_partial",
    "C22_moment_partial",
    "C22_strain",
    "C22_pure_bending_refuted"
   ],
   "note": "Normal force constant; shear force right at the ends; exact formula for the moment without shear deformation. Shear and moment between the nodes refuted for pure bending."
  },
  {
   "property": "C23",
   "status": "partial",
   "theorems": [
    "C23_hinge_fixity",
    "C23_hinge_monotone",
    "C23_hinge_rigid",
    "C23_hinge_shared",
    "C23_rejection_refuted"
   ],
   "note": "All but the rejection of factors outside [0, 1]: the exception is constructed but not raised (refuted)."
  },
  {
   "property": "C24",
   "status": "proved",
   "theorems": [
    "C24_rail_length"
   ],
   "note": ""
  },
  {
   "property": "C25",
   "status": "proved",
   "theorems": [
    "C25_rod_stiffness",
    "C25_rod_mass",
    "C25_rod_defined"
   ],
   "note": "The mass of a rod is its mass attribute; the code has no density for rods."
  },
  {
   "property": "C26",
   "status": "partial",
   "theorems": [
    "C26_validation_partial",
    "C26_validation_sound",
    "C26_validation_sequence",
    "C26_independence_refuted"
   ],
   "note": "Exact when no error was logged before in the process; independence of earlier models refuted (logging cache)."
  },
  {
   "property": "C27",
   "status": "proved",
   "theorems": [
    "C27_ramp",
    "C27_too_short",
    "C27_absent"
   ],
   "note": ""
  },
  {
   "property": "C28",
   "status": "partial",
   "theorems": [
    "C28_static_equivalence_partial",
    "C28_combined_load",
    "C28_combined_load_refuted",
    "C28_moving_load_partial"
   ],
   "note": "Proved for loads without moment or without transverse force, on one element and end to end for a moving load. With both a transverse force and a moment the claim is false: shared work arrays lose the force and double the moment."
  },
  {
   "property": "C29",
   "status": "partial",
   "theorems": [
    "C29_contact_element_partial",
    "C29_before_track",
    "C29_at_end",
    "C29_end_refuted",
    "C29_fast_load_refuted",
    "C29_backward_load_refuted"
   ],
   "note": "Proved for loads that start on the track before its last node, run forward and do not pass an element in one step. False for faster loads, backward motion and a start at the last node."
  },
  {
   "property": "C30",
   "status": "proved",
   "theorems": [
    "C30_filter",
    "C30_location"
   ],
   "note": ""
  },
  {
   "property": "C31",
   "status": "partial",
   "theorems": [
    "C31_contact_part_partial",
    "C31_owner_unique",
    "C31_third_part_refuted"
   ],
   "note": "Proved when the load starts on the first or second part; false when it starts on a later part."
  },
  {
   "property": "C32",
   "status": "proved",
   "theorems": [
    "C32_history_independent",
    "C32_static_value"
   ],
   "note": ""
  },
  {
   "property": "C33",
   "status": "partial",
   "theorems": [
    "C33_force_sum_partial",
    "C33_condition_numbers",
    "C33_duplicate_node_refuted"
   ],
   "note": "Refuted when a condition lists a node twice (fancy += loses one contribution)."
  },
  {
   "property": "C34",
   "status": "proved",
   "theorems": [
    "C34_load_distance",
    "C34_train_distance",
    "C34_travelled",
    "C34_lengths"
   ],
   "note": ""
  },
  {
   "property": "C35",
   "status": "proved",
   "theorems": [
    "C35_numbering",
    "C35_count",
    "C35_bogies",
    "C35_wheels",
    "C35_contact"
   ],
   "note": "A bogie shared by carts is numbered once; the matrices are still sized per cart (C35_count), so a shared bogie leaves unused rows."
  },
  {
   "property": "C36",
   "status": "partial",
   "theorems": [
    "C36_energy",
    "C36_springs_partial",
    "C36_nonnegative_partial",
    "C36_dissipation_partial",
    "C36_mass",
    "C36_unbalanced_refuted",
    "C36_nonnegative_iff"
   ],
   "note": "Refuted for unbalanced suspensions (distribution factors or distances whose weighted sum is not zero, as in the end carts of the default SLT train): the vertical-pitch coupling term is missing. C36_energy gives the exact energy of every train, the partial theorems the claim for balanced suspensions."
  },
  {
   "property": "C37",
   "status": "proved",
   "theorems": [
    "C37_weight",
    "C37_forces",
    "C37_static_force",
    "C37_no_carts"
   ],
   "note": "For any carts, bogies (shared or not) and wheels; a train without carts raises."
  },
  {
   "property": "C38",
   "status": "partial",
   "theorems": [
    "C38_growth",
    "C38_same_load_partial",
    "C38_loads_refuted",
    "C38_irregularities",
    "C38_irregularities_refuted"
   ],
   "note": "Refuted: loads and generated irregularities accumulate. C38_growth gives the exact loads after n initialisations."
  },
  {
   "property": "C39",
   "status": "partial",
   "theorems": [
    "C39_residual_partial",
    "C39_wheels_at_rest",
    "C39_equilibrium_refuted"
   ],
   "note": "Refuted: the force of the imposed displacements has the wrong sign. The exact residual is proved; equilibrium holds when the wheels are at rest."
  },
  {
   "property": "C40",
   "status": "proved",
   "theorems": [
    "C40_by_position",
    "C40_bounded",
    "C40_all_wheels",
    "C40_no_harmonics"
   ],
   "note": "The random phases are an arbitrary stream determined by the seed."
  },
  {
   "property": "C41",
   "status": "partial",
   "theorems": [
    "C41_force_vector",
    "C41_transfer_partial",
    "C41_total_partial",
    "C41_shared_refuted"
   ],
   "note": "Exact force vector for all wheels. Full transfer when no two wheels share a track degree of freedom. With sharing the claim is false: the last wheel overwrites the others (witness given)."
  },
  {
   "property": "C42",
   "status": "partial",
   "theorems": [
    "C42_hertz",
    "C42_continuous_increasing",
    "C42_other_exponents_partial",
    "C42_quadratic_refuted",
    "C42_linear_refuted",
    "C42_zero_coefficient"
   ],
   "note": "Exponent 3/2 and all non-integer exponents in full. For exponent 2 the law pulls at every separation, for exponent 1 it pushes at separation: the part 'any positive exponent never pulls' is refuted."
  },
  {
   "property": "C43",
   "status": "proved",
   "theorems": [
    "C43_static",
    "C43_equilibrium",
    "C43_no_power"
   ],
   "note": "Downward static loads, positive coefficient and exponent."
  },
  {
   "property": "C44",
   "status": "proved",
   "theorems": [
    "C44_blocks",
    "C44_mismatch",
    "C44_vectors",
    "C44_numbers",
    "C44_inactive"
   ],
   "note": ""
  },
  {
   "property": "C45",
   "status": "partial",
   "theorems": [
    "C45_local_position_partial",
    "C45_shape_factors",
    "C45_indices",
    "C45_height_refuted"
   ],
   "note": "Holds for rails on the x axis with any origin. For a level rail at another height it is false (witness)."
  },
  {
   "property": "C46",
   "status": "proved",
   "theorems": [
    "C46_check"
   ],
   "note": ""
  },
  {
   "property": "C47",
   "status": "partial",
   "theorems": [
    "C47_single_part_partial",
    "C47_several_parts_refuted"
   ],
   "note": "Holds for a rail of one part; false for every rail of two or more parts, since the joint nodes are listed twice."
  },
  {
   "property": "C48",
   "status": "partial",
   "theorems": [
    "C48_trials",
    "C48_history",
    "C48_in_place_refuted"
   ],
   "note": "Full for the entry points used by the solvers (update_non_linear_iteration, update_time_step_rhs). The separate in-place method update_force_vector accumulates (witness)."
  },
  {
   "property": "C49",
   "status": "partial",
   "theorems": [
    "C49_stages_partial",
    "C49_returning_step_refuted"
   ],
   "note": "Refuted when a step size comes back later (A, B, A)."
  },
  {
   "property": "C50",
   "status": "proved",
   "theorems": [
    "C50_rayleigh_ratio",
    "C50_rayleigh_matrix"
   ],
   "note": ""
  },
  {
   "property": "C51",
   "status": "proved",
   "theorems": [
    "C51_horizontal_track",
    "C51_no_rail",
    "C51_empty"
   ],
   "note": ""
  },
  {
   "property": "C52",
   "status": "partial",
   "theorems": [
    "C52_joined_tracks_partial",
    "C52_one_element_per_sleeper",
    "C52_sleepers_refuted"
   ],
   "note": "Rail spacing, pads, soil and mesh proved for any number of tracks. The sleeper distance holds for one rail element per sleeper; with more the distance at the joint is 2d - d/r (refuted for every such input)."
  },
  {
   "property": "C53",
   "status": "partial",
   "theorems": [
    "C53_hinge_interior_partial",
    "C53_hinge_missing",
    "C53_hinge_ends_refuted"
   ],
   "note": "Proved for every interior node; refuted at both ends of the rail."
  },
  {
   "property": "C54",
   "status": "proved",
   "theorems": [
    "C54_positions",
    "C54_symmetric",
    "C54_parts",
    "C54_sharing",
    "C54_inside",
    "C54_total",
    "C54_one_cart"
   ],
   "note": "All train types of set_train. The articulated SLT train needs two carts (the default of one cart raises ValueError)."
  },
  {
   "property": "C55",
   "status": "partial",
   "theorems": [
    "C55_no_overlap_partial",
    "C55_overlap_refuted",
    "C55_positions",
    "C55_parts",
    "C55_total"
   ],
   "note": "Holds for one locomotive (or no wagons) and any number of wagons. Refuted for every train with two or more locomotives and a wagon: wagons are placed behind the first locomotive."
  },
  {
   "property": "C56",
   "status": "partial",
   "theorems": [
    "C56_bottom",
    "C56_bottom_level_partial",
    "C56_bottom_level_refuted"
   ],
   "note": "The lowest node of every element is fixed; this is the set of lowest nodes only if every element has exactly one node at the lowest level."
  },
  {
   "property": "C57",
   "status": "proved",
   "theorems": [
    "C57_contact",
    "C57_straight",
    "C57_empty"
   ],
   "note": "Profiles running from left to right (vertical steps allowed), real arithmetic."
  },
  {
   "property": "C58",
   "status": "partial",
   "theorems": [
    "C58_flat_partial",
    "C58_once_partial",
    "C58_height",
    "C58_last_refuted",
    "C58_short_refuted"
   ],
   "note": "Proved for all samples but the last. Refuted: the last sample is never indented, and a trajectory in which no interior sample completes a revolution raises IndexError."
  },
  {
   "property": "C59",
   "status": "partial",
   "theorems": [
    "C59_varandas",
    "C59_liselig_partial",
    "C59_idle_refuted"
   ],
   "note": "Proved for the Varandas model over all sequences of continued periods (parameters >= 0). For Li and Selig proved when every type has at least one load per period and the layers have positive strength; a type with less than one load makes the reported settlement decrease (C59_idle_refuted)."
  },
  {
   "property": "C60",
   "status": "partial",
   "theorems": [
    "C60_count",
    "C60_equal_partial",
    "C60_idle_refuted",
    "C60_no_force_refuted",
    "C60_start_refuted"
   ],
   "note": "The exact number of loads counted for each type is proved (C60_count); it is the number of cycles for types with the largest number of cycles and a period from day 0. The unrestricted claim is false: a type without traffic or without force adds one load with the largest force, and a later start loses cycles."
  },
  {
   "property": "C61",
   "status": "proved",
   "theorems": [
    "C61_varandas",
    "C61_liselig"
   ],
   "note": ""
  },
  {
   "property": "C62",
   "status": "partial",
   "theorems": [
    "C62_lengths",
    "C62_appends_partial",
    "C62_uninterrupted",
    "C62_other_nodes_refuted",
    "C62_more_trains_refuted"
   ],
   "note": "Lengths, prefix and start from the last settlement are proved for every sequence of continued calculations of the same nodes; continuing with other nodes is accepted and joins the rows of different nodes (C62_other_nodes_refuted), and a Li and Selig calculation cannot be continued with more train types (C62_more_trains_refuted)."
  },
  {
   "property": "C63",
   "status": "partial",
   "theorems": [
    "C63_iff",
    "C63_rejects",
    "C63_cycles",
    "C63_unread",
    "C63_backwards_refuted"
   ],
   "note": "C63_iff is the exact condition; besides the stated errors a period that ends before it starts also raises (C63_backwards_refuted), so the claimed iff does not hold as stated."
  },
  {
   "property": "C64",
   "status": "partial",
   "theorems": [
    "C64_runs",
    "C64_too_few_bounds",
    "C64_evaluations",
    "C64_within_partial",
    "C64_later_within",
    "C64_start_refuted",
    "C64_best",
    "C64_nothing",
    "C64_sentinel_refuted"
   ],
   "note": "Best position and error proved for every cost function that never has the value -1 (all non-negative ones). Bounds proved if the start position is within them, and in any case after the first evaluation; a start position outside the bounds is evaluated unchanged (C64_start_refuted), so the unrestricted claim is false."
  },
  {
   "property": "C65",
   "status": "partial",
   "theorems": [
    "C65_current",
    "C65_error",
    "C65_refuted"
   ],
   "note": "The claim is false (C65_refuted): the remembered best position is the same list object as the current position, so it always equals the current position (C65_current). The personal best error is right (C65_error)."
  },
  {
   "property": "C66",
   "status": "proved",
   "theorems": [
    "C66_history",
    "C66_written",
    "C66_too_few",
    "C66_setup"
   ],
   "note": ""
  },
  {
   "property": "C67",
   "status": "proved",
   "theorems": [
    "C67_run",
    "C67_gain",
    "C67_constant_time_step",
    "C67_given_time_steps"
   ],
   "note": "All runs in independent mode; exact weighted mean, variance and gain. Floating point is modelled by exact reals."
  },
  {
   "property": "C68",
   "status": "partial",
   "theorems": [
    "C68_independent_partial",
    "C68_elementwise",
    "C68_gain_refuted",
    "C68_symmetric_refuted"
   ],
   "note": "Refuted for dependent measurements: the code divides element by element instead of solving the system, so the first gain is never optimal and the covariance can become asymmetric with negative variances. The claim holds for independent quantities."
  },
  {
   "property": "C69",
   "status": "partial",
   "theorems": [
    "C69_bands",
    "C69_rms",
    "C69_unconverted",
    "C69_signal_refuted",
    "C69_twice_refuted"
   ],
   "note": "The bands are disjoint and contiguous. The signal is left unchanged only without conversion: by default the caller's array is multiplied by 1000 in place, so a second call gives 1000 times the effective values. Welch's estimator and the band pass filter are arbitrary functions."
  },
  {
   "property": "C70",
   "status": "proved",
   "theorems": [
    "C70_defined",
    "C70_log_normal",
    "C70_no_variation",
    "C70_normal",
    "C70_expectation_unique",
    "C70_field"
   ],
   "note": "Expectations are improper integrals against the normal density, proved to exist. gstools' field generator is an arbitrary function of the moments."
  },
  {
   "property": "C71",
   "status": "proved",
   "theorems": [
    "C71_rows",
    "C71_depth",
    "C71_succeeds",
    "C71_uneven_refuted"
   ],
   "note": "For tables whose columns have equal lengths; C71_uneven_refuted records that columns of unequal length are accepted and mixed up."
  },
  {
   "property": "C72",
   "status": "proved",
   "theorems": [
    "C72_interaction"
   ],
   "note": ""
  },
  {
   "property": "C73",
   "status": "partial",
   "theorems": [
    "C73_shifted",
    "C73_origin_partial",
    "C73_start_refuted"
   ],
   "note": "Exact placement proved; correct when the rail starts at x = 0, false otherwise (witness)."
  },
  {
   "property": "C74",
   "status": "partial",
   "theorems": [
    "C74_elsewhere_partial",
    "C74_under_wheel_refuted"
   ],
   "note": "Loads away from wheels are kept; loads at degrees of freedom under a wheel are dropped in every case."
  },
  {
   "property": "C75",
   "status": "partial",
   "theorems": [
    "C75_suspension_partial",
    "C75_suspension_refuted",
    "C75_weight"
   ],
   "note": "Holds for all generated trains but the articulated SLT train. For the SLT train of every length both suspension energy and dissipation take negative values (distribution factors unbalanced at the end carts). The weight is carried in all cases."
  },
  {
   "property": "C76",
   "status": "proved",
   "theorems": [
    "C76_liselig_law"
   ],
   "note": ""
  },
  {
   "property": "C77",
   "status": "proved",
   "theorems": [
    "C77_varandas_law"
   ],
   "note": ""
  },
  {
   "property": "C78",
   "status": "proved",
   "theorems": [
    "C78_classes",
    "C78_unknown",
    "C78_one_class",
    "C78_stops"
   ],
   "note": ""
  },
  {
   "property": "C79",
   "status": "proved",
   "theorems": [
    "C79_motion"
   ],
   "note": ""
  },
  {
   "property": "C80",
   "status": "partial",
   "theorems": [
    "C80_residual",
    "C80_function",
    "C80_other_names_refuted",
    "C80_second_request_refuted",
    "C80_single_index_refuted"
   ],
   "note": "Proved for the first result name of one request with at least two indices, also with a function of the user's. Further names are ignored, and a second request or a single index makes every evaluation fail."
  },
  {
   "property": "C81",
   "status": "proved",
   "theorems": [
    "C81_ordered",
    "C81_levels",
    "C81_runs",
    "C81_short"
   ],
   "note": "Band pass filter arbitrary. For signals shorter than a metre the window wraps around (C81_short)."
  },
  {
   "property": "C82",
   "status": "proved",
   "theorems": [
    "C82_set_direction",
    "C82_count",
    "C82_part_total"
   ],
   "note": ""
  },
  {
   "property": "C83",
   "status": "partial",
   "theorems": [
    "C83_reported_partial",
    "C83_rail_partial",
    "C83_rods",
    "C83_sign_refuted",
    "C83_mixed_directions_refuted"
   ],
   "note": "Proved for parts whose elements all have the same direction. The force is computed with the rotation of the last assembled element of the part, so it is wrong for other directions, and lying and standing rods report opposite signs."
  },
  {
   "property": "C84",
   "status": "partial",
   "theorems": [
    "C84_run_again",
    "C84_run_again_cleaned",
    "C84_changed_partial",
    "C84_stays_removed",
    "C84_changed_refuted",
    "C84_cleaned"
   ],
   "note": "The repeated run without changes is proved in full. The statement about changed settings is refuted: flags set to inactive by a constraint or by trimming stay inactive because clean_model does not restore them. The partial theorem gives the condition under which the second run equals a fresh one."
  },
  {
   "property": "C85",
   "status": "proved",
   "theorems": [
    "C85_symmetric_semidefinite",
    "C85_energy",
    "C85_element_energy"
   ],
   "note": ""
  },
  {
   "property": "C86",
   "status": "proved",
   "theorems": [
    "C86_total_mass"
   ],
   "note": ""
  },
  {
   "property": "C87",
   "status": "proved",
   "theorems": [
    "C87_definite",
    "C87_well_posed",
    "C87_sides_needed"
   ],
   "note": ""
  },
  {
   "property": "C88",
   "status": "proved",
   "theorems": [
    "C88_sheet",
    "C88_cargo",
    "C88_weight",
    "C88_weight_slt",
    "C88_weight_cargo"
   ],
   "note": "Sheets are in Spec_Sheets.v, read from default_trains.py independently of the model; times and velocities of the train are not part of a sheet."
  },
  {
   "property": "C89",
   "status": "partial",
   "theorems": [
    "C89_steps",
    "C89_sizes_partial",
    "C89_nodes",
    "C89_ends",
    "C89_no_step",
    "C89_returning_refuted",
    "C89_unknown_refuted"
   ],
   "note": "Steps, order, initial state and nodal results proved for all time arrays and solvers. The step size is the mean of the stage, equal to the step's own size unless a step size comes back later (refuted there). An unknown solver type is not rejected (refuted)."
  },
  {
   "property": "C90",
   "status": "partial",
   "theorems": [
    "C90_track_partial",
    "C90_rest_partial",
    "C90_body_refuted",
    "C90_shared_refuted"
   ],
   "note": "Equilibrium of the track and static load at every wheel proved when no two wheels share a track degree of freedom and there are no other loads; the exact residual of the train is given. Equilibrium of the train on a track that moves is refuted (wrong sign of the imposed displacements), as is equilibrium with shared degrees of freedom."
  },
  {
   "property": "C91",
   "status": "partial",
   "theorems": [
    "C91_mean",
    "C91_range",
    "C91_spread",
    "C91_ratios",
    "C91_no_weights",
    "C91_nearest",
    "C91_distance",
    "C91_profile_partial",
    "C91_counts",
    "C91_join",
    "C91_turned_refuted",
    "C91_jump_refuted"
   ],
   "note": "values, nearest time and distances proved; coordinates and values correspond when no segment joins at the start of the track; refuted in general, and the ends of segments with more than two coordinates are confused; every segment of two coordinates is joined where the gap is smallest"
  },
  {
   "property": "C92",
   "status": "partial",
   "theorems": [
    "C92_held",
    "C92_unknown",
    "C92_weighted_partial",
    "C92_between_partial",
    "C92_order_refuted",
    "C92_twice_refuted",
    "C92_recomputed"
   ],
   "note": "exact contents for every order of the files; sum over all files if files of a segment follow each other; refuted for other orders"
  },
  {
   "property": "C93",
   "status": "partial",
   "theorems": [
    "C93_lines_right",
    "C93_complete_partial",
    "C93_order_refuted",
    "C93_scenario_counts"
   ],
   "note": "lines are right in every order; complete if segments are listed in the order of the soil data; refuted otherwise"
  },
  {
   "property": "C94",
   "status": "partial",
   "theorems": [
    "C94_segment",
    "C94_scenario",
    "C94_neither",
    "C94_word",
    "C94_extension_refuted",
    "C94_three_parts"
   ],
   "note": "parts proved; refuted for a scenario at the end of the name, which keeps the extension"
  },
  {
   "property": "C95",
   "status": "proved",
   "theorems": [
    "C95_stiffness",
    "C95_spring"
   ],
   "note": ""
  },
  {
   "property": "C96",
   "status": "partial",
   "theorems": [
    "C96_static",
    "C96_reciprocal",
    "C96_outside_refuted"
   ],
   "note": "Proved for forces on the beam. A force beyond its end is accepted and moves the support (refuted)."
  },
  {
   "property": "C97",
   "status": "partial",
   "theorems": [
    "C97_supported",
    "C97_clamped",
    "C97_fine_mesh_refuted",
    "C97_massless_refuted"
   ],
   "note": "Proved for two supports and for a clamped end when the diagonal values exceed the tolerance 1e-8 of the code. Refuted for very short elements, whose rotations are removed, and for a beam without mass."
  },
  {
   "property": "C98",
   "status": "partial",
   "theorems": [
    "C98_undamped",
    "C98_middle",
    "C98_middle_refuted",
    "C98_modes_refuted"
   ],
   "note": "Equation of motion, supports and rest at the start proved for one mode less than requested and a force at the middle point of the list. Mid-span needs an even number of elements; the number of modes is one less than requested (refuted)."
  },
  {
   "property": "C99",
   "status": "partial",
   "theorems": [
    "C99_damped",
    "C99_overdamped",
    "C99_many_modes_refuted"
   ],
   "note": "Proved when every mode is damped less than critically; otherwise every reported number is nan, which happens from some number of modes on with stiffness damping (refuted)."
  },
  {
   "property": "C100",
   "status": "proved",
   "theorems": [
    "C100_shear"
   ],
   "note": "For exact roots of the frequency equation (the search of scipy is not modelled)."
  },
  {
   "property": "C101",
   "status": "partial",
   "theorems": [
    "C101_clamped",
    "C101_velocity_refuted"
   ],
   "note": "The displacement is proved for exact roots of the frequency equation. The reported velocity is not that of the displacement (refuted for every beam)."
  },
  {
   "property": "C102",
   "status": "partial",
   "theorems": [
    "C102_rod",
    "C102_times",
    "C102_start_refuted"
   ],
   "note": "Wave equation, ends, velocity and period proved for every number of terms. The initial displacement is not zero for the partial sums (refuted)."
  },
  {
   "property": "C103",
   "status": "proved",
   "theorems": [
    "C103_hinge"
   ],
   "note": ""
  },
  {
   "property": "C104",
   "status": "partial",
   "theorems": [
    "C104_vehicle",
    "C104_runs",
    "C104_damper_refuted"
   ],
   "note": "Vehicle always in balance, beam in balance with the spring alone. The damper's force is missing on the beam (refuted); the time step is always larger than requested."
  },
  {
   "property": "C105",
   "status": "partial",
   "theorems": [
    "C105_before",
    "C105_rejected",
    "C105_critical_refuted"
   ],
   "note": "Proved below the critical speed for increasing positions; faster forces are rejected. Refuted at the critical speed itself, where every displacement is nan."
  },
  {
   "property": "C106",
   "status": "partial",
   "theorems": [
    "C106_transform",
    "C106_jump_refuted"
   ],
   "note": "Transformed equation, start, decay and continuity of slope, moment and shear force proved for every argument that is no pole; continuity of the deflection holds only for equal stiffnesses and is refuted otherwise (sign in line 181). The convergence of the series to the motion is not proved."
  },
  {
   "property": "C107",
   "status": "partial",
   "theorems": [
    "C107_grid",
    "C107_uniform",
    "C107_order_refuted"
   ],
   "note": "Proved for strictly increasing positions; refuted for other orders."
  },
  {
   "property": "C108",
   "status": "proved",
   "theorems": [
    "C108_power",
    "C108_free_motion"
   ],
   "note": "Motions are continuous in time; the solver that approximates them is not modelled here."
  },
  {
   "property": "C109",
   "status": "proved",
   "theorems": [
    "C109_reciprocal",
    "C109_maxwell",
    "C109_superposition",
    "C109_unique"
   ],
   "note": "Uniqueness for generated tracks that are held as in C87."
  },
  {
   "property": "C110",
   "status": "proved",
   "theorems": [
    "C110_same_system",
    "C110_same_motion"
   ],
   "note": "The order of the nodes within a part is kept."
  },
  {
   "property": "C111",
   "status": "partial",
   "theorems": [
    "C111_same_system",
    "C111_same_motion",
    "C111_leaning_refuted"
   ],
   "note": "Holds for rods and for beams and rails that are exactly upright or more than 1e-8 wide along x; refuted for beams that are nearly upright."
  },
  {
   "property": "C112",
   "status": "partial",
   "theorems": [
    "C112_blocks",
    "C112_once",
    "C112_power",
    "C112_dissipates",
    "C112_again",
    "C112_both_exact",
    "C112_free_exact",
    "C112_both_refuted",
    "C112_free_refuted"
   ],
   "note": "Blocks, ratio, power and repetition are proved for all systems. Refuted: a track with the option of its own is damped twice (exact: twice the ratio), and free motions of the train are damped by a0 times the mass."
  },
  {
   "property": "C113",
   "status": "partial",
   "theorems": [
    "C113_rolling",
    "C113_standing",
    "C113_coupled",
    "C113_shared_refuted"
   ],
   "note": "Holds for every motion while no two wheels share degrees of freedom of the track; false for two wheels on one element, where the forces of one wheel overwrite those of the other."
  },
  {
   "property": "C114",
   "status": "partial",
   "theorems": [
    "C114_times",
    "C114_nothing",
    "C114_step",
    "C114_step_refuted",
    "C114_motion",
    "C114_motion_refuted",
    "C114_speed",
    "C114_stages",
    "C114_segments",
    "C114_segments_refuted"
   ],
   "note": "The requested step size, the start of the train and the length for sleeper numbers that the factor does not divide are refuted; what happens instead is proved exactly."
  },
  {
   "property": "C115",
   "status": "partial",
   "theorems": [
    "C115_series",
    "C115_joint",
    "C115_springs",
    "C115_refused",
    "C115_fixity",
    "C115_fixity_refuted",
    "C115_joint_refuted",
    "C115_mass_refuted"
   ],
   "note": "The stiffness of the joint, the fixity of the rail ends and the mass of the hinge are refuted; the stiffness and fixity that result are proved. Beams without shear deformation."
  },
  {
   "property": "C116",
   "status": "partial",
   "theorems": [
    "C116_nodes",
    "C116_numbers",
    "C116_behind_track",
    "C116_before_reset",
    "C116_coincident",
    "C116_coincident_refuted"
   ],
   "note": "Proved for parts of a kind that start more than 1e-9 apart. For parts at the same place the claim is false; what happens to them is proved instead."
  },
  {
   "property": "C117",
   "status": "partial",
   "theorems": [
    "C117_equations",
    "C117_results",
    "C117_coincident_refuted"
   ],
   "note": "Proved for trains whose parts of one kind start more than 1e-9 apart, also with shared bogies and with parts without mass or stiffness. Without that condition the claim is false: two bogies at the same place get each other's equations silently (C117_coincident_refuted)."
  },
  {
   "property": "C118",
   "status": "partial",
   "theorems": [
    "C118_nodes",
    "C118_forces",
    "C118_ends",
    "C118_soil",
    "C118_train",
    "C118_single_refuted"
   ],
   "note": "Everything is proved for runs with at least two times. Refuted for a single time: the forces in the elements are calculated from displacements that were never assigned, which raises."
  },
  {
   "property": "C119",
   "status": "proved",
   "theorems": [
    "C119_static",
    "C119_momentum",
    "C119_axis",
    "C119_scripts",
    "C119_total"
   ],
   "note": "All numbers of sleepers and elements, parameters, boundaries and loads. Load conditions list each node once (otherwise C33 fails). C119_axis is for rail elements without shear deformation; with it the shape functions of the code depend on the unit of length (C21)."
  },
  {
   "property": "C120",
   "status": "partial",
   "theorems": [
    "C120_nothing",
    "C120_written_refuted",
    "C120_counted",
    "C120_stem",
    "C120_distinct",
    "C120_overwritten_refuted",
    "C120_read_back",
    "C120_scenarios_partial",
    "C120_order_refuted"
   ],
   "note": "refuted: the script writes no file at all, silently; for an object with the missing methods the files are right when the directory lists the scenarios of the three trains in the same order"
  },
  {
   "property": "C121",
   "status": "partial",
   "theorems": [
    "C121_held",
    "C121_weighted_partial",
    "C121_order_refuted",
    "C121_map",
    "C121_map_refuted"
   ],
   "note": "refuted for files of a segment that are not listed one after the other, and for the map, two values of which nothing provides; proved otherwise"
  },
  {
   "property": "C122",
   "status": "partial",
   "theorems": [
    "C122_demo",
    "C122_batch",
    "C122_histories",
    "C122_soil",
    "C122_generated",
    "C122_stiffness",
    "C122_numbers",
    "C122_ends",
    "C122_pads_refuted",
    "C122_same_row_refuted"
   ],
   "note": "Proved except for two parts that the code does not meet: the force of the rail pads is written as zero (C122_pads_refuted) and the dynamic stiffness is taken from rows of different sleepers (C122_same_row_refuted)."
  },
  {
   "property": "C123",
   "status": "proved",
   "theorems": [
    "C123_soil",
    "C123_rest",
    "C123_independent",
    "C123_ends",
    "C123_needs",
    "C123_generated"
   ],
   "note": "Rayleigh damping is kept explicit in C123_rest; the damping part of C123_independent is for tracks without it."
  },
  {
   "property": "C124",
   "status": "partial",
   "theorems": [
    "C124_train",
    "C124_contacts",
    "C124_momentum",
    "C124_rest",
    "C124_start",
    "C124_loads",
    "C124_uneven_refuted",
    "C124_shared_refuted"
   ],
   "note": "Proved for all trains with evenly placed springs and wheels on separate degrees of freedom; refuted without either (C124_uneven_refuted, C124_shared_refuted). The initial state is proved without both conditions."
  },
  {
   "property": "C125",
   "status": "proved",
   "theorems": [
    "C125_static",
    "C125_momentum",
    "C125_joined",
    "C125_joined_momentum",
    "C125_hinged",
    "C125_hinged_momentum",
    "C125_scripts",
    "C125_total"
   ],
   "note": "Structures of level beams, upright springs and point masses; the joined tracks of the scripts with and without a hinge in the rail"
  },
  {
   "property": "C126",
   "status": "proved",
   "theorems": [
    "C126_definite",
    "C126_well_posed"
   ],
   "note": "Stiffness of joined tracks is positive definite"
  },
  {
   "property": "C127",
   "status": "proved",
   "theorems": [
    "C127_momentum",
    "C127_rest",
    "C127_start",
    "C127_joined_momentum",
    "C127_joined_rest",
    "C127_joined_start"
   ],
   "note": "C124 for structures of any shape and for the joined and hinged tracks of the scripts"
  },
  {
   "property": "C128",
   "status": "proved",
   "theorems": [
    "C128_stands",
    "C128_definite",
    "C128_well_posed",
    "C128_loose_end"
   ],
   "note": "The condition on hinges without stiffness is part of the claim; C128_loose_end shows that it is needed."
  },
  {
   "property": "C129",
   "status": "partial",
   "theorems": [
    "C129_as_whole",
    "C129_rail",
    "C129_first_refuted"
   ],
   "note": "proved for every hinge inside the rail; refuted for a hinge at the first rail node, where the rail pads are listed as rail"
  },
  {
   "property": "C130",
   "status": "partial",
   "theorems": [
    "C130_names",
    "C130_each",
    "C130_right",
    "C130_others",
    "C130_order",
    "C130_scenarios",
    "C130_underscore_refuted"
   ],
   "note": "Proved for all folders, models, speeds, orders and ends of the batch; names of scenarios differ when segment and scenario names have no underscore. Refuted without that condition: two scenarios get the same name (C130_underscore_refuted)."
  },
  {
   "property": "C131",
   "status": "partial",
   "theorems": [
    "C131_one_answer",
    "C131_stiffer",
    "C131_joined",
    "C131_under_load",
    "C131_trim_refuted"
   ],
   "note": "Proved for all joined tracks of the scripts with rail and pad stiffnesses above the tolerance of the solver, and for any two models of which the second stores at least the energy of the first and has no direction that is held in the first. Refuted below the tolerance: directions with a stiffness of at most 1e-8 are held instead of free, so a softer spring can give a smaller displacement (C131_trim_refuted)."
  },
  {
   "property": "C132",
   "status": "proved",
   "theorems": [
    "C132_reciprocal",
    "C132_superposed",
    "C132_joined"
   ],
   "note": "For all models of beams, springs and point masses with physically sensible values; superposition gives an answer with the added displacements, which is the only one where C131_one_answer applies."
  },
  {
   "property": "C133",
   "status": "partial",
   "theorems": [
    "C133_same_places",
    "C133_same_model",
    "C133_same_answers",
    "C133_one_by_one",
    "C133_cut_refuted"
   ],
   "note": "Proved for one rail element per sleeper; refuted for two or more, where each cut lengthens the track."
  },
  {
   "property": "C134",
   "status": "partial",
   "theorems": [
    "C134_describes",
    "C134_returns",
    "C134_offered",
    "C134_shared_refuted",
    "C134_cargo_refuted",
    "C134_empty_refuted"
   ],
   "note": "Proved for all trains of vehicles of one kind and all offered trains but the Sprinter SLT; refuted for shared bogies, cargo trains and trains without carts."
  },
  {
   "property": "C135",
   "status": "proved",
   "theorems": [
    "C135_directions",
    "C135_count",
    "C135_order",
    "C135_columns",
    "C135_optimisation"
   ],
   "note": "for tracks joined from segments with the constraints of the scripts and values above the tolerance 1e-8; explicit row numbers for one segment"
  },
  {
   "property": "C136",
   "status": "partial",
   "theorems": [
    "C136_given",
    "C136_initial",
    "C136_small",
    "C136_longer_refuted",
    "C136_fewer"
   ],
   "note": "holds for every history with fixed settings; the last sentence is refuted for a longer time array (C136_longer_refuted)"
  },
  {
   "property": "C137",
   "status": "partial",
   "theorems": [
    "C137_tried",
    "C137_compared",
    "C137_files",
    "C137_singular_refuted",
    "C137_ambiguous_refuted"
   ],
   "note": "The trials, what is compared and the loop over the files are proved for every model and every search method. That the observation determines stiffness and damping is refuted: the normal equations are singular everywhere."
  },
  {
   "property": "C138",
   "status": "partial",
   "theorems": [
    "C138_names",
    "C138_files",
    "C138_on_track",
    "C138_scripts",
    "C138_stops_refuted",
    "C138_two_carts_refuted"
   ],
   "note": "The loop, and that trains of one cart stay on the rail, are proved for all settings. That the scripts calculate all six trains is refuted: they end with a ValueError at the second one, whatever the calculation does."
  },
  {
   "property": "C139",
   "status": "partial",
   "theorems": [
    "C139_values",
    "C139_too_few",
    "C139_track",
    "C139_sign",
    "C139_place_refuted",
    "C139_repeats_refuted",
    "C139_negative_refuted"
   ],
   "note": "which value goes to which sleeper proved for any drawn function and any stretches; refuted: the field is read up to a sleeper distance ahead of the sleeper, the second stretch repeats the variation of the first and damping that of stiffness, values can be negative"
  },
  {
   "property": "C140",
   "status": "partial",
   "theorems": [
    "C140_same_system",
    "C140_same_motion",
    "C140_symmetric",
    "C140_image",
    "C140_opposite",
    "C140_track",
    "C140_leaning_refuted",
    "C140_track_refuted"
   ],
   "note": "Proved for every model with sound parts whose beams do not lean by less than 1e-8 m (rods may), and for tracks with one rail element per sleeper and sleeper distances above 1e-8 m; refuted for beams that lean less (C140_leaning_refuted) and for tracks with two or more rail elements per sleeper, whose rail sticks out on one side (C140_track_refuted)."
  },
  {
   "property": "C141",
   "status": "partial",
   "theorems": [
    "C141_same_system",
    "C141_same_balance",
    "C141_same_motion",
    "C141_same_system_refuted"
   ],
   "note": "Proved for models whose directional stiffnesses and masses do not cross 1e-8 in the change of units; without that hypothesis refuted for every change of units (C141_same_system_refuted), because the trimming uses an absolute tolerance."
  },
  {
   "property": "C142",
   "status": "proved",
   "theorems": [
    "C142_built",
    "C142_answers",
    "C142_carries",
    "C142_extra",
    "C142_too_few",
    "C142_empty_segment",
    "C142_demo"
   ],
   "note": "Composition of the geometry of the script with the theorems about joined tracks (C52, C125, C131, C135). The Rayleigh damping is quantified over. Finding: the gap of 0.9 m at the joint of demo.py."
  },
  {
   "property": "C143",
   "status": "proved",
   "theorems": [
    "C143_free",
    "C143_change",
    "C143_sudden",
    "C143_point",
    "C143_joined",
    "C143_reached"
   ],
   "note": "continuous motions of the assembled equations; the time integration of the external solvers is not part of the statement"
  },
  {
   "property": "C144",
   "status": "partial",
   "theorems": [
    "C144_system",
    "C144_moving",
    "C144_forces",
    "C144_mesh",
    "C144_far_refuted",
    "C144_merge_refuted"
   ],
   "note": "refuted in full: the tolerance for upright elements of moving loads is relative to the coordinates, and nodes closer than 1e-9 are merged or not depending on where they lie; everything else is proved"
  },
  {
   "property": "C145",
   "status": "partial",
   "theorems": [
    "C145_no_energy",
    "C145_displaced",
    "C145_no_force",
    "C145_resultant",
    "C145_upright_refuted"
   ],
   "note": "proved for displacements of any model and for turning level beams and rails with upright or level rods; turning upright beams is refuted by C145_upright_refuted"
  },
  {
   "property": "C146",
   "status": "partial",
   "theorems": [
    "C146_same_system",
    "C146_same_balance",
    "C146_same_motion",
    "C146_same_system_refuted"
   ],
   "note": "Proved for all models whose values are on the same side of 1e-8 in both units and whose rails are evenly spaced. Without that the claim is false for every other unit of length: C146_same_system_refuted gives a beam whose ends rotate in one unit and not in the other."
  },
  {
   "property": "C147",
   "status": "partial",
   "theorems": [
    "C147_loses",
    "C147_no_slower",
    "C147_no_softer",
    "C147_unmoved",
    "C147_released_refuted"
   ],
   "note": "Proved for all further constraints that hold what their nodes cannot do already. Without that the claim is false: a later constraint on the same node takes back what an earlier one held, C147_released_refuted."
  },
  {
   "property": "C148",
   "status": "partial",
   "theorems": [
    "C148_joined_again",
    "C148_cut",
    "C148_shapes",
    "C148_load_between",
    "C148_shapes_refuted"
   ],
   "note": "Proved for the rest position with and without shear deformation, and for shape functions and loads between nodes without shear deformation; with shear deformation the code's shape functions are not the bent beam unless its length is 1, refuted by C148_shapes_refuted."
  },
  {
   "property": "C149",
   "status": "proved",
   "theorems": [
    "C149_kinetic",
    "C149_carried",
    "C149_no_higher"
   ],
   "note": "Proved for level beams between two nodes with fixed ends and any other parts; the same directions must be calculated in both models."
  },
  {
   "property": "C150",
   "status": "partial",
   "theorems": [
    "C150_bound",
    "C150_trim_refuted"
   ],
   "note": "Proved when no direction moves in the second model that is held in the first, for beams without end springs; without that hypothesis the trimming by a tolerance breaks the claim, refuted by C150_trim_refuted."
  },
  {
   "property": "C151",
   "status": "proved",
   "theorems": [
    "C151_stands",
    "C151_work",
    "C151_own_node"
   ],
   "note": "Level beams without shear deformation, force or moment (the claim's range); with shear deformation the shape functions are not the bent beam (C148_shapes_refuted), with vertical force and moment together the nodal forces are wrong (C28_combined_load_refuted)."
  },
  {
   "property": "C152",
   "status": "proved",
   "theorems": [
    "C152_influence",
    "C152_places"
   ],
   "note": "Level beams without shear deformation, force or moment; with both see C28, with shear deformation see C148."
  }
 ]
}