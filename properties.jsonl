{"id": "C01", "title": "Node comparison decides coincidence and merges only on success", "statement": "Comparing two nodes answers True exactly when all three coordinates differ by at most 1e-9. When it answers False neither node changes. When it answers True the left node ends with the union of the active degree-of-freedom flags of both, takes over every degree-of-freedom number the right node already has, keeps its own number elsewhere, and lists the model parts of both; the right node and both coordinate triples are unchanged.", "quantifier": "all pairs of nodes: any coordinates, flags, numbering and model-part lists", "why_tests_cant": "the comparison has side effects on an unbounded state; tests only look at a few equal and unequal pairs", "anchors": ["rose/model/geometry.py::Node.__eq__", "rose/model/geometry.py::Node.set_dof"]}
{"id": "C02", "title": "Adding nodes to a mesh keeps one node per rounded coordinate, in first-seen order", "statement": "After any sequence of calls that add nodes to a mesh, no two mesh nodes have the same coordinates rounded to nine decimals, every node object ever passed is represented by a mesh node with the same rounded coordinates, nodes already in the mesh keep their relative order and position, and adding objects that are already in the mesh changes nothing.", "quantifier": "all sequences of batches of nodes, all coordinates, every hash function on the rounded coordinates", "why_tests_cant": "needs an invariant over all insertion histories, including merge side effects of the comparison", "anchors": ["rose/model/geometry.py::Mesh.add_unique_nodes_to_mesh", "rose/model/geometry.py::Node.__hash__", "rose/model/geometry.py::Node.__eq__"]}
{"id": "C03", "title": "Nodes that compare equal are stored once", "statement": "After adding nodes to a mesh, no two different mesh nodes compare equal (coordinates within 1e-9).", "quantifier": "all lists of nodes with arbitrary coordinates", "why_tests_cant": "the equality tolerance and the rounding used for hashing disagree only on coordinates that straddle a rounding boundary, which examples do not hit", "anchors": ["rose/model/geometry.py::Mesh.add_unique_nodes_to_mesh", "rose/model/geometry.py::Node.__hash__", "rose/model/geometry.py::Node.__eq__"]}
{"id": "C04", "title": "Renumbering gives every mesh node and element its position as index", "statement": "After renumbering, the indices of the nodes (elements) of a mesh are exactly 0, 1, ..., n-1 in list order, whatever indices they had before; nothing else of the nodes or elements changes and repeating it changes nothing.", "quantifier": "all meshes of any size, any previous indices", "why_tests_cant": "universally quantified over mesh size and previous numbering", "anchors": ["rose/model/geometry.py::Mesh.reorder_node_ids", "rose/model/geometry.py::Mesh.reorder_element_ids"]}
{"id": "C05", "title": "Elements on the same nodes are stored once", "statement": "After adding elements to a mesh, no two different stored elements connect the same set of nodes; every added element is represented by a stored one.", "quantifier": "all lists of elements over arbitrary nodes, including reversed node order", "why_tests_cant": "element equality ignores node order while the hash does not; only adversarial insertion orders show the difference", "anchors": ["rose/model/geometry.py::Mesh.add_unique_elements_to_mesh", "rose/model/geometry.py::Element.__eq__", "rose/model/geometry.py::Element.__hash__"]}
{"id": "C06", "title": "Degrees of freedom are numbered without gaps or collisions", "statement": "Initialising a model with n nodes gives 3n degrees of freedom; node i has the numbers 3i, 3i+1, 3i+2 for x displacement, y displacement and z rotation, so distinct (node, direction) pairs have distinct numbers, every number below 3n is used, and numbers increase along the mesh order.", "quantifier": "all meshes of any size and any earlier numbering", "why_tests_cant": "bijection on an unbounded index set", "anchors": ["rose/model/global_system.py::GlobalSystem.initialise_ndof"]}
{"id": "C07", "title": "Removing degrees of freedom keeps matrices and node numbering consistent", "statement": "After removing any set of degrees of freedom, each surviving (node, direction) has as new number the position that its old row takes in the trimmed matrices, i.e. the trimmed mass, stiffness and damping entry at two new numbers equals the untrimmed entry at the two old numbers and the trimmed force entry equals the old one; new numbers are exactly 0..m-1 and removed ones become inactive and unnumbered.", "quantifier": "all meshes numbered in increasing order, all matrices, all sets of removed indices (with repetitions, in any order)", "why_tests_cant": "relates two independent renumbering computations (matrix slicing and a counter over nodes) for every index set", "anchors": ["rose/model/global_system.py::GlobalSystem.trim_global_matrices_on_indices", "rose/model/global_system.py::GlobalSystem.recalculate_dof", "rose/model/utils.py::delete_from_lil"]}
{"id": "C08", "title": "The trimmed system contains exactly the free, massive, stiff degrees of freedom", "statement": "After trimming, a degree of freedom is in the system iff it was active, is not removed by a no-displacement constraint (an inactive direction of the constraint's nodes or of its own flag), and its diagonal mass and stiffness entries are both larger than 1e-8 in absolute value; a direction's active flag is set iff it has a number.", "quantifier": "all meshes, flags, constraints and diagonal entries", "why_tests_cant": "quantifies over every combination of flags, constraints and matrix entries", "anchors": ["rose/model/global_system.py::GlobalSystem.trim_all_global_matrices", "rose/model/global_system.py::GlobalSystem.__get_constrained_indices", "rose/model/model_part.py::ConstraintModelPart.set_constraint_condition"]}
{"id": "C09", "title": "Nodal results are the solver columns of that node's degrees of freedom", "statement": "After results are assigned, for every output time the displacement, velocity and acceleration of an active direction of a node is the solver value in the column with that direction's number, and of an inactive direction it is 0.", "quantifier": "all nodes whose flag pattern agrees with their numbering, all solver outputs", "why_tests_cant": "the scatter through a boolean mask and a gather through number lists must agree for all eight activity patterns and any sizes", "anchors": ["rose/model/geometry.py::Node.assign_result", "rose/model/global_system.py::GlobalSystem._assign_result_to_node", "rose/model/global_system.py::GlobalSystem.assign_results_to_nodes"]}
{"id": "C10", "title": "Nodal forces are reported as zero in inactive directions", "statement": "After results are assigned with forces, the nodal force of an active direction is the solver force in its column and the nodal force of every inactive direction is 0.", "quantifier": "all nodes, all solver outputs, all prior memory contents", "why_tests_cant": "uninitialised memory is usually zero in a fresh test process", "anchors": ["rose/model/geometry.py::Node.assign_result"]}
{"id": "C11", "title": "Reshaping an element matrix to all directions only inserts zero rows and columns", "statement": "Reshaping an element matrix given for the active directions of its nodes yields a (3n)x(3n) matrix in which the entry between two active (node, direction) pairs is the original entry at their ranks among active pairs and every entry touching an inactive direction is 0; with all directions active the matrix is returned unchanged; symmetry is preserved.", "quantifier": "any number of nodes per element, any activity pattern, any matrix of matching size", "why_tests_cant": "index arithmetic must hold for every pattern and element size", "anchors": ["rose/model/utils.py::reshape_aux_matrix"]}
{"id": "C12", "title": "Assembly is superposition and does not depend on element order", "statement": "Adding element (or nodal) matrices to a global matrix yields, at every pair of degrees of freedom, the old entry plus the sum over all elements of the entries mapped to this pair; the result is independent of the order of elements, symmetric when the contributions and the start are symmetric, and positive semidefinite when they are.", "quantifier": "all lists of elements, all connectivity (including shared nodes), all matrices", "why_tests_cant": "unbounded sums with repeated indices", "anchors": ["rose/model/utils.py::add_aux_matrix_to_global", "rose/model/global_system.py::GlobalSystem.__add_aux_matrices_to_global"]}
{"id": "C13", "title": "Deleting rows and columns keeps exactly the other rows and columns in order", "statement": "Deleting a list of row indices and a list of column indices from a matrix yields the submatrix of the remaining rows and columns in the original order; repeated or unordered indices make no difference; empty lists delete nothing.", "quantifier": "all matrices and all index lists within range", "why_tests_cant": "universal over index lists and sizes", "anchors": ["rose/model/utils.py::delete_from_lil"]}
{"id": "C14", "title": "Rotating a point preserves length and is undone by the opposite angle", "statement": "Rotating vectors about the z axis by an angle preserves the in-plane length and inner products and the z component, and rotating back by the opposite angle restores every vector exactly; scalar angles act on every vector of the list.", "quantifier": "all angles and all lists of vectors", "why_tests_cant": "universal over reals", "anchors": ["rose/model/utils.py::rotate_point_around_z_axis"]}
{"id": "C15", "title": "The element angle points from the first node to the second", "statement": "The angle computed for two points p, q that differ in the xy plane satisfies |pq| cos = dx and |pq| sin = dy up to the documented closeness tolerance, in both the single-point and the list version.", "quantifier": "all pairs of distinct points in the plane", "why_tests_cant": "sign and quadrant handling at tolerance boundaries; tests use exact axis directions", "anchors": ["rose/model/utils.py::calculate_rotation", "rose/model/utils.py::calculate_point_rotation"]}
{"id": "C16", "title": "An element resists only deformation along and across its own axis", "statement": "The global stiffness of a two-node rod is the stiffness along the line through its nodes: moving one end perpendicular to the rod axis causes no nodal force, for every orientation of the rod.", "quantifier": "all rod orientations and stiffnesses", "why_tests_cant": "tests fix a few orientations (and one of them fixes the mirrored matrix)", "anchors": ["rose/model/utils.py::rotate_aux_matrix", "rose/model/model_part.py::RodElementModelPart.set_rotation_matrix", "rose/model/model_part.py::RodElementModelPart.set_aux_stiffness_matrix"]}
{"id": "C17", "title": "The beam stiffness matrix is symmetric, positive semidefinite and free of rigid-body forces", "statement": "For a beam with positive modulus, area, inertia and length, any non-negative shear deformation factor and fully fixed ends, the stiffness matrix is symmetric, rigid translations and the rigid rotation produce no nodal forces, and the strain energy is non-negative and is zero only for rigid motions.", "quantifier": "all section, material and length values; all nodal displacement vectors", "why_tests_cant": "universal over reals; definiteness cannot be tested by samples", "anchors": ["rose/model/model_part.py::TimoshenkoBeamElementModelPart.set_aux_stiffness_matrix", "rose/model/model_part.py::TimoshenkoBeamElementModelPart.calculate_timoshenko_factor"]}
{"id": "C18", "title": "Semi-rigid end springs do not create forces under rigid motion", "statement": "For a beam with rotational springs at its ends (fixity factors between 0 and 1), the stiffness matrix is symmetric, positive semidefinite, annihilates rigid translations and the rigid rotation, reduces to the fixed-end matrix when both fixities are 1, and transmits no moment at an end whose spring stiffness is 0.", "quantifier": "all spring stiffnesses including 0 and infinity, all shear factors, all displacement vectors", "why_tests_cant": "algebraic identity over all reals; tests compare single numbers", "anchors": ["rose/model/model_part.py::TimoshenkoBeamElementModelPart.__set_rigid_part_stiffness_matrix", "rose/model/model_part.py::TimoshenkoBeamElementModelPart.set_aux_stiffness_matrix"]}
{"id": "C19", "title": "The beam mass matrix has the exact mass properties of the element", "statement": "The mass matrix is symmetric; its kinetic energy for a rigid unit translation in x or y is the element mass density*area*length; for a rigid rotation about the first node it is m L^2/3 plus density*inertia*length when shear deformation is considered; the coupling between translation and rotation is m L/2; and the kinetic energy of any nodal velocity is non-negative.", "quantifier": "all densities, areas, inertias, lengths and non-negative shear factors, all nodal velocities", "why_tests_cant": "universal algebraic identities", "anchors": ["rose/model/model_part.py::TimoshenkoBeamElementModelPart.__set_translational_aux_mass_matrix", "rose/model/model_part.py::TimoshenkoBeamElementModelPart.__set_rotational_aux_mass_matrix", "rose/model/model_part.py::TimoshenkoBeamElementModelPart.set_aux_mass_matrix"]}
{"id": "C20", "title": "Beam shape functions interpolate nodes and reproduce rigid motion", "statement": "At the element ends the transverse shape functions give exactly the nodal displacement; for every position a rigid translation and a rigid rotation of the nodes are reproduced exactly; the axial functions are linear with sum one; and the rotation shape functions are the derivative of the transverse ones along the element.", "quantifier": "all positions, lengths and shear factors", "why_tests_cant": "identities over all reals (derivative included)", "anchors": ["rose/model/model_part.py::TimoshenkoBeamElementModelPart.set_y_shape_functions", "rose/model/model_part.py::TimoshenkoBeamElementModelPart.set_z_rot_shape_functions", "rose/model/model_part.py::TimoshenkoBeamElementModelPart.set_normal_shape_functions"]}
{"id": "C21", "title": "Shape functions do not depend on the unit of length", "statement": "Expressing the element length and the position in another unit (scaling both by a factor, shear factor unchanged) leaves the displacement shape functions unchanged and scales the rotation-to-displacement shape functions by that factor; constant-curvature bending is reproduced exactly by the interpolation.", "quantifier": "all scale factors, positions, lengths and shear factors", "why_tests_cant": "unit tests use element length one, where a missing length factor is invisible", "anchors": ["rose/model/model_part.py::TimoshenkoBeamElementModelPart.set_y_shape_functions"]}
{"id": "C22", "title": "Internal forces between nodes are in equilibrium with the nodal forces", "statement": "For an element loaded only at its nodes the internal normal force and shear force are constant along the element and the bending moment varies linearly between the two end moments; hence constant curvature gives a constant bending moment and strain.", "quantifier": "all positions within the element and all self-equilibrated nodal force vectors", "why_tests_cant": "universal over positions and nodal forces; the tests check the implementation's own polynomial", "anchors": ["rose/model/model_part.py::TimoshenkoBeamElementModelPart.calculate_local_forces_at_x", "rose/model/model_part.py::TimoshenkoBeamElementModelPart.calculate_strain"]}
{"id": "C23", "title": "The hinge stiffness realises the requested fixity factor", "statement": "For every fixity factor f with 0 <= f < 1 the rotational stiffness computed for a hinge makes a beam end of the same modulus, inertia and length have fixity exactly f when used as its end spring; the stiffness is 0 for f=0, grows strictly with f, and an f outside [0,1] is rejected.", "quantifier": "all fixity factors, moduli, inertias and lengths", "why_tests_cant": "round trip over reals, and the rejection clause must hold for every illegal value", "anchors": ["rose/model/track.py::Hinge.calculate_hinge_stiffness", "rose/model/model_part.py::TimoshenkoBeamElementModelPart.__set_rigid_part_stiffness_matrix"]}
{"id": "C24", "title": "A rail is accepted only if all its elements have the same length", "statement": "Computing the rail element length either raises an error or leaves a length equal to the first node distance such that every distance between consecutive rail nodes is within 1e-8 + 1e-5*distance of it; it raises whenever some distance is further away; rails with fewer than two nodes keep their length.", "quantifier": "all node sequences in space", "why_tests_cant": "universal over sequences of any length", "anchors": ["rose/model/track.py::Rail.calculate_length_rail"]}
{"id": "C25", "title": "Rod matrices describe a massive two-node spring-damper", "statement": "For a rod the stiffness and damping energies are k/2 times and c times the squared elongation (rate) and the mass matrix is symmetric positive definite with total mass equal to the given mass (or density*area*length); a rod without mass contributes nothing to the mass matrix.", "quantifier": "all stiffness, damping, mass and length values and all nodal values", "why_tests_cant": "algebraic identities over reals", "anchors": ["rose/model/model_part.py::RodElementModelPart.set_aux_stiffness_matrix", "rose/model/model_part.py::RodElementModelPart.set_aux_mass_matrix", "rose/model/model_part.py::RodElementModelPart.set_aux_damping_matrix"]}
{"id": "C26", "title": "Validation fails exactly when the current model is invalid", "statement": "Validating the input raises an error iff some part of the model being validated is incomplete; the outcome does not depend on models validated earlier in the same process.", "quantifier": "all sequences of models validated in one process", "why_tests_cant": "depends on process-wide logger state; each test sees only its own history", "anchors": ["rose/model/global_system.py::GlobalSystem.validate_input", "rose/model/model_part.py::Section.validate_input", "rose/model/model_part.py::Material.validate_input"]}
{"id": "C27", "title": "A load is ramped up linearly and then held", "statement": "The time history of a load with an initialisation phase of n steps in a calculation of N >= n steps rises linearly from 0 at the first step to the full value at step n-1 and equals the full value at all later steps; without initialisation phase it is constant; its length is N.", "quantifier": "all loads, all lengths of initialisation and calculation phase", "why_tests_cant": "universal over lengths", "anchors": ["rose/model/boundary_conditions.py::LoadCondition.set_load_vector_as_function_of_time"]}
{"id": "C28", "title": "Nodal forces of a moving load are statically equivalent to the load", "statement": "At every time step the nodal forces and moments produced for a moving point load on a beam element of any orientation have the same resultant force and the same resultant moment about any point as the load itself.", "quantifier": "all load components, element orientations, positions on the element, shear factors", "why_tests_cant": "universal over geometry and load combinations; tests use one load component at a time", "anchors": ["rose/model/boundary_conditions.py::MovingPointLoad.update_force", "rose/model/boundary_conditions.py::MovingPointLoad.__distribute_shear_force", "rose/model/boundary_conditions.py::MovingPointLoad.__distribute_z_moment", "rose/model/boundary_conditions.py::MovingPointLoad.__distribute_normal_force"]}
{"id": "C29", "title": "The contact element contains the moving load at every time step", "statement": "At every time step the element chosen for a moving load contains the load's position along the track.", "quantifier": "all node distances, all starting positions on the track and all distance histories that stay on the track", "why_tests_cant": "an invariant over time for arbitrary speeds, time steps and directions", "anchors": ["rose/model/boundary_conditions.py::MovingPointLoad.set_active_elements", "rose/model/boundary_conditions.py::MovingPointLoad.get_first_element_idx"]}
{"id": "C30", "title": "A load outside the track acts nowhere and a load on the track acts in full", "statement": "After filtering, the load history equals the ramped load at every step at which the load is within the track and is 0 at every step at which it is outside, and the location used for interpolation is the nearest track position.", "quantifier": "all distance histories, loads and track lengths", "why_tests_cant": "universal over histories", "anchors": ["rose/model/boundary_conditions.py::MovingPointLoad.filter_load_outside_range", "rose/model/utils.py::filter_data_outside_range", "rose/model/utils.py::filer_location"]}
{"id": "C31", "title": "The model part used for the shape functions owns the contact element", "statement": "At every time step the model part associated with a moving load is the one that contains the contact element of that step.", "quantifier": "all partitions of the track into model parts and all contact element histories produced for a moving load", "why_tests_cant": "an invariant over time for any partition and start position", "anchors": ["rose/model/boundary_conditions.py::MovingPointLoad.set_contact_model_part_as_function_of_time"]}
{"id": "C32", "title": "The force vector of a time step depends only on that time step", "statement": "Whatever time steps were evaluated before and in whatever order, evaluating the force vector for a time step of a model gives the same vector as evaluating it first on a fresh model, and no contribution is added twice.", "quantifier": "all finite histories of evaluated time steps and all load sets", "why_tests_cant": "state machine property over histories", "anchors": ["rose/model/global_system.py::GlobalSystem.update_time_step_rhs", "rose/model/boundary_conditions.py::LoadCondition.update_force", "rose/model/boundary_conditions.py::MovingPointLoad.update_force"]}
{"id": "C33", "title": "The global force vector is the sum of all loads on each degree of freedom", "statement": "For every time step each entry of the global force vector is the sum, over all load conditions and all their nodes, of the nodal values acting on that degree of freedom.", "quantifier": "all sets of load conditions and node lists, including conditions listing a node more than once", "why_tests_cant": "vectorised in-place addition with repeated indices behaves differently from a sum", "anchors": ["rose/model/global_system.py::GlobalSystem.__add_condition_to_global", "rose/model/global_system.py::GlobalSystem.update_time_step_rhs"]}
{"id": "C34", "title": "Travelled distance is the accumulated speed", "statement": "The distance history of a moving load and the distance history of a wheel that starts at the same place are identical, start at the starting distance, grow by speed times time step in every step, never decrease for non-negative speed, and keep the distances between the parts of a train constant.", "quantifier": "all time grids, velocity histories and train layouts", "why_tests_cant": "two independent implementations compared over all histories", "anchors": ["rose/model/utils.py::calculate_cum_distance_from_velocity", "rose/model/train_model.py::TrainModel.calculate_distances", "rose/model/train_model.py::Cart.calculate_distances", "rose/model/train_model.py::Bogie.calculate_distances", "rose/model/boundary_conditions.py::MovingPointLoad.calculate_cumulative_distance_moving_load"]}
{"id": "C35", "title": "Train degrees of freedom are numbered injectively, shared bogies once", "statement": "Initialising the degrees of freedom of a train gives every cart and every bogie two numbers and every wheel one number, all different, with a bogie shared by neighbouring carts numbered once; the numbers are exactly 0..m-1.", "quantifier": "all trains: any number of carts, bogies, wheels and any sharing of bogies between neighbouring carts", "why_tests_cant": "unbounded structures with aliasing", "anchors": ["rose/model/train_model.py::Wheel.calculate_active_n_dof", "rose/model/train_model.py::Bogie.calculate_active_n_dof", "rose/model/train_model.py::Cart.calculate_active_n_dof", "rose/model/train_model.py::TrainModel.initialise_ndof"]}
{"id": "C36", "title": "Train stiffness, damping and mass are those of a spring-connected multi-body system", "statement": "The train stiffness (damping) matrix is symmetric and its energy is the sum over all suspensions of stiffness times half the squared relative displacement of the connected points; in particular it is non-negative, rigid vertical translation and rigid pitch of a cart with its bogies cause no force; the mass matrix is diagonal with the masses and inertias.", "quantifier": "all trains, suspension values, distances and distribution factors, all displacement vectors", "why_tests_cant": "universal over structures and reals; fixtures are symmetric", "anchors": ["rose/model/train_model.py::Cart.fill_stiffness_matrix", "rose/model/train_model.py::Cart.fill_damping_matrix", "rose/model/train_model.py::Cart.fill_mass_matrix", "rose/model/train_model.py::Bogie.fill_stiffness_matrix", "rose/model/train_model.py::Bogie.fill_damping_matrix", "rose/model/train_model.py::Bogie.fill_mass_matrix", "rose/model/train_model.py::Wheel.fill_mass_matrix"]}
{"id": "C37", "title": "The weight of the train is carried completely by its wheels", "statement": "After the static loads of a train are computed, the sum of the static loads on all wheels equals minus g times the sum of all cart, bogie and wheel masses plus the external load passed to the computation, also when carts share bogies.", "quantifier": "all trains with at least one bogie per cart and one wheel per bogie", "why_tests_cant": "conservation over unbounded tree structures with sharing", "anchors": ["rose/model/train_model.py::TrainModel.calculate_total_static_load", "rose/model/train_model.py::Cart.calculate_total_static_load", "rose/model/train_model.py::Bogie.calculate_total_static_load", "rose/model/train_model.py::Wheel.calculate_total_static_load"]}
{"id": "C38", "title": "Initialising the same train again gives the same loads and irregularities", "statement": "Initialising a train or coupled model a second time, after cleaning it for another calculation, results in the same wheel loads and the same irregularities as the first time.", "quantifier": "all trains, any number of repeated initialisations", "why_tests_cant": "history property; every test builds a fresh model", "anchors": ["rose/model/train_model.py::TrainModel.calculate_total_static_load", "rose/model/train_model.py::TrainModel.initialise_irregularities_at_wheels", "rose/model/train_track_interaction.py::CoupledTrainTrack.clean_model"]}
{"id": "C39", "title": "The initial train displacement is in static equilibrium with the imposed wheel displacement", "statement": "The initial displacement computed for a train with given wheel displacements satisfies the equilibrium equations of all remaining degrees of freedom: stiffness times the full displacement (with the wheels at the given values) equals the external force.", "quantifier": "all trains, external forces and imposed wheel displacements, for any linear solver that solves exactly", "why_tests_cant": "universal over systems and imposed displacements; the tests use wheels at rest", "anchors": ["rose/model/train_model.py::TrainModel.calculate_initial_displacement", "rose/model/train_model.py::TrainModel.impose_displacement"]}
{"id": "C40", "title": "Rail irregularity is a function of the position on the track only", "statement": "Two wheels (or the same wheel at two times) at the same position experience the same generated rail irregularity, for a given seed, whatever the rest of their trajectories; its absolute value never exceeds the sum of the spectral amplitudes.", "quantifier": "all trajectories, seeds and spectra", "why_tests_cant": "a pointwise property of an array computation driven by a random generator", "anchors": ["rose/model/irregularities.py::RailIrregularities", "rose/model/utils.py::generate_rail_irregularities"]}
{"id": "C41", "title": "Contact forces are transferred completely to the track", "statement": "At every iteration the total vertical force the wheels put on the track equals minus the sum of the contact forces of all wheels.", "quantifier": "all wheel positions including several wheels on one element or on neighbouring elements", "why_tests_cant": "assignment versus accumulation only differs when wheels share a degree of freedom", "anchors": ["rose/model/train_track_interaction.py::CoupledTrainTrack.set_wheel_load_on_track", "rose/model/train_track_interaction.py::CoupledTrainTrack.update_force_vector_contact"]}
{"id": "C42", "title": "The wheel-rail contact never pulls and grows with penetration", "statement": "With the Hertzian exponent 3/2 the contact force is zero when wheel and rail are separated, equals (penetration/G)^(3/2) when they overlap, never pulls, is continuous and strictly increasing in the penetration; with any positive exponent it never pulls.", "quantifier": "all penetrations, contact coefficients and exponents", "why_tests_cant": "universal over reals including the NaN path for negative penetration", "anchors": ["rose/model/train_track_interaction.py::CoupledTrainTrack.calculate_wheel_rail_contact_force"]}
{"id": "C43", "title": "At rest the contact force equals the static wheel load", "statement": "When every wheel follows the track by exactly its static contact deformation, the contact force of each wheel equals the magnitude of its static load, so the static state is an equilibrium of the contact law.", "quantifier": "all static loads, contact coefficients and exponents", "why_tests_cant": "inverse function identity over reals", "anchors": ["rose/model/train_track_interaction.py::CoupledTrainTrack.calculate_static_contact_deformation", "rose/model/train_track_interaction.py::CoupledTrainTrack.calculate_wheel_rail_contact_force"]}
{"id": "C44", "title": "Coupling keeps track and train matrices and numbering apart", "statement": "The coupled mass, damping and stiffness matrices have the track matrix in the first block, the train matrix in the second and zero elsewhere; train numbers are shifted by the number of track degrees of freedom, so no number is used by both and every train quantity is read from its own row.", "quantifier": "all track and train sizes and matrices", "why_tests_cant": "universal over sizes", "anchors": ["rose/model/train_track_interaction.py::CoupledTrainTrack.combine_global_matrices", "rose/model/train_track_interaction.py::CoupledTrainTrack.initialise_ndof", "rose/model/train_track_interaction.py::CoupledTrainTrack.combine_rhs"]}
{"id": "C45", "title": "The local position of a wheel is its distance from the first node of its contact element", "statement": "For a straight horizontal track the local coordinate used to evaluate the track displacement under a wheel equals the wheel position minus the x coordinate of the first node of its contact element at every time step, wherever the track starts.", "quantifier": "all track origins, node spacings and wheel histories", "why_tests_cant": "universal over histories; tests start the track at the origin", "anchors": ["rose/model/train_track_interaction.py::CoupledTrainTrack.calculate_distance_wheels_track_nodes", "rose/model/train_track_interaction.py::CoupledTrainTrack.initialize_wheel_loads"]}
{"id": "C46", "title": "A train outside the track is rejected before calculation", "statement": "Initialisation raises an error iff some wheel is, at some time, before the first or beyond the last rail node (up to single precision round-off).", "quantifier": "all wheel histories and rail geometries", "why_tests_cant": "universal over histories", "anchors": ["rose/model/train_track_interaction.py::CoupledTrainTrack.__check_train_position"]}
{"id": "C47", "title": "Rail nodes of a hinged track are listed once for the wheel loads", "statement": "When wheel loads are created on a rail consisting of several connected model parts, the node list of a load and its element list describe the same polyline: element i runs from listed node i to listed node i+1, also when a semi-rigid hinge splits the rail.", "quantifier": "all rails and all hinge positions", "why_tests_cant": "structural invariant for all rail lengths and hinge positions", "anchors": ["rose/model/train_track_interaction.py::CoupledTrainTrack.initialize_wheel_loads", "rose/pre_process/mesh_utils.py::add_semi_rigid_hinge_at_x"]}
{"id": "C48", "title": "The force used in a non-linear iteration depends only on the time step and the current displacement", "statement": "Evaluating the coupled force vector for a given time step and displacement gives the same result whatever displacements were tried before in the same time step.", "quantifier": "all finite sequences of trial displacements", "why_tests_cant": "history independence of in-place updates", "anchors": ["rose/model/train_track_interaction.py::CoupledTrainTrack.update_non_linear_iteration", "rose/model/train_track_interaction.py::CoupledTrainTrack.update_force_vector_contact"]}
{"id": "C49", "title": "Every calculation stage has a constant time step", "statement": "The stage boundaries computed from the time vector start at 0, end at the last index, increase, and within one stage all time steps are equal.", "quantifier": "all strictly increasing time vectors", "why_tests_cant": "universal over sequences, including ones returning to an earlier step size", "anchors": ["rose/model/global_system.py::GlobalSystem.set_stage_time_ids"]}
{"id": "C50", "title": "Rayleigh damping gives the requested damping ratio at both frequencies", "statement": "For positive frequencies the Rayleigh damping matrix damps a mode at either of the two given frequencies with exactly the requested ratio, is non-negative, between the two frequencies the ratio is at most the requested one, and explicit damping of parts is added to it.", "quantifier": "all damping ratios, frequency pairs and modes", "why_tests_cant": "universal over reals", "anchors": ["rose/model/global_system.py::GlobalSystem.calculate_rayleigh_damping", "rose/model/global_system.py::GlobalSystem.__calculate_rayleigh_damping_factors"]}
{"id": "C51", "title": "A generated horizontal track has the requested geometry and connectivity", "statement": "A generated track with n sleepers and r rail elements per sleeper distance has n*r rail nodes at equal spacing d/r, n sleeper nodes at spacing d directly below every r-th rail node, n*r-1 rail elements between neighbouring rail nodes and n rail pads each connecting a rail node with the sleeper below it.", "quantifier": "all n, all r >= 1, all sleeper distances d with d/r above the coordinate tolerance of 1e-9 and all soil depths above it", "why_tests_cant": "universal over counts", "anchors": ["rose/pre_process/mesh_utils.py::create_horizontal_track"]}
{"id": "C52", "title": "Joining tracks continues rails and sleepers at the same spacing", "statement": "Joining horizontal tracks with equal sleeper distance gives a rail without gaps in which all neighbouring rail nodes have the same spacing and all neighbouring sleepers have the sleeper distance.", "quantifier": "all numbers of tracks, sleepers and rail elements per sleeper", "why_tests_cant": "universal over counts; the tests use one element per sleeper", "anchors": ["rose/pre_process/mesh_utils.py::combine_horizontal_tracks"]}
{"id": "C53", "title": "A semi-rigid hinge splits the rail without losing or duplicating elements", "statement": "Adding a hinge at a rail node splits the rail into the elements before, the one or two elements touching the hinge node and the elements after, in order, each original element in exactly one part.", "quantifier": "all rail lengths and all rail node positions including both ends", "why_tests_cant": "universal over positions; the ends are boundary cases", "anchors": ["rose/pre_process/mesh_utils.py::add_semi_rigid_hinge_at_x"]}
{"id": "C54", "title": "Carts of a generated passenger train are coupled consistently", "statement": "In a generated passenger train consecutive carts are one cart length apart, bogies and wheels lie symmetrically, each shared bogie has the same position seen from both of its carts and its distribution factors add up to one.", "quantifier": "all numbers of carts and start coordinates", "why_tests_cant": "universal over counts", "anchors": ["rose/pre_process/default_trains.py::set_train", "rose/pre_process/default_trains.py::set_sprinter_slt_train", "rose/pre_process/default_trains.py::set_double_dekker_train"]}
{"id": "C55", "title": "Vehicles of a generated cargo train do not overlap", "statement": "In a generated cargo train every vehicle occupies an interval of its own length around its position and these intervals do not overlap.", "quantifier": "all numbers of locomotives and wagons", "why_tests_cant": "universal over counts; only single locomotives are exercised", "anchors": ["rose/pre_process/default_trains.py::build_cargo_train"]}
{"id": "C56", "title": "The bottom boundary fixes exactly the lowest nodes", "statement": "The boundary created at the bottom of a mesh contains exactly the mesh nodes whose y coordinate equals the minimum over all nodes, so it is never empty for a non-empty mesh.", "quantifier": "all meshes", "why_tests_cant": "universal over meshes", "anchors": ["rose/pre_process/mesh_utils.py::add_no_displacement_boundary_to_bottom"]}
{"id": "C57", "title": "A wheel rolling over a rail defect touches the profile and never penetrates it", "statement": "The irregularity computed for a rail defect places the wheel circle such that it touches the rail profile and no point of the profile lies inside the circle, for every wheel position on the track.", "quantifier": "all profiles with increasing x, wheel diameters and positions", "why_tests_cant": "geometric extremum over a continuum of profile points", "anchors": ["rose/model/irregularities.py::RailDefect"]}
{"id": "C58", "title": "A wheel flat occurs once per wheel revolution", "statement": "The wheel flat irregularity is zero except at the samples in which the wheel has completed another revolution, where it is minus the flat height D/2(1-cos(asin(l/D))), for every trajectory including ones shorter than one revolution.", "quantifier": "all trajectories, diameters and flat lengths", "why_tests_cant": "universal over trajectories, boundary samples", "anchors": ["rose/model/irregularities.py::WheelFlat"]}
{"id": "C59", "title": "Accumulated settlement never decreases", "statement": "The settlement predicted for each node is non-negative and non-decreasing over the reported times, also across consecutive periods in which the calculation is continued.", "quantifier": "all traffic compositions, soil parameters, force histories and continuation histories", "why_tests_cant": "monotonicity over unbounded numbers of cycles", "anchors": ["rose/model/accumulation_model.py::Varandas.settlement", "rose/model/accumulation_model.py::LiSelig.settlement", "rose/model/accumulation_model.py::AccumulationModel.calculate_settlement"]}
{"id": "C60", "title": "Each train type contributes exactly its number of load cycles", "statement": "In the Varandas model every train type contributes exactly as many load cycles as its number of cycles in the period, independent of the other trains and of the start of the period; a train type without traffic or without forces above the threshold contributes no settlement.", "quantifier": "all traffic compositions and start times", "why_tests_cant": "off-by-one in loops over cycle numbers with different trains", "anchors": ["rose/model/accumulation_model.py::Varandas.settlement", "rose/model/accumulation_model.py::ReadTrainInfo"]}
{"id": "C61", "title": "The reported settlement at the end does not depend on the reporting interval", "statement": "For a given traffic the last reported settlement is the settlement after all cycles, for every reporting interval that yields at least two reported values, and reported values are values of the same settlement history at increasing cycle numbers.", "quantifier": "all reporting intervals and cycle counts", "why_tests_cant": "universal over intervals", "anchors": ["rose/model/accumulation_model.py::Varandas.settlement", "rose/model/accumulation_model.py::LiSelig.settlement"]}
{"id": "C62", "title": "Continuing a settlement calculation appends to the earlier results", "statement": "Continuing a calculation keeps all earlier reported times and settlements as a prefix, starts from the last settlement, and keeps time and settlement lists of equal length.", "quantifier": "all sequences of continued calculations", "why_tests_cant": "history property over continuation sequences", "anchors": ["rose/model/accumulation_model.py::AccumulationModel.calculate_settlement", "rose/model/accumulation_model.py::AccumulationModel.__create_results"]}
{"id": "C63", "title": "Traffic with inconsistent node counts is rejected", "statement": "Reading traffic raises an error iff the force histories of the train types do not all have the same number of nodes (or there is no train); otherwise cycles of a type are per-hour times hours times axles times days.", "quantifier": "all traffic dictionaries", "why_tests_cant": "universal over dictionaries", "anchors": ["rose/model/accumulation_model.py::AccumulationModel.read_traffic", "rose/model/accumulation_model.py::ReadTrainInfo"]}
{"id": "C64", "title": "Particle swarm positions stay within bounds and the best error is the minimum", "statement": "Throughout a particle swarm optimisation all evaluated positions lie within the bounds and the returned error is the smallest error of all evaluated positions and belongs to the returned position.", "quantifier": "all non-negative cost functions, random draws, particle counts and iteration counts", "why_tests_cant": "invariant over all random executions", "anchors": ["rose/optimisation/particle_swarm_optimisation.py::PSO", "rose/optimisation/particle_swarm_optimisation.py::Particle"]}
{"id": "C65", "title": "A particle remembers its own best position", "statement": "The personal best position of a particle is always the position at which its personal best error was evaluated.", "quantifier": "all cost functions and random executions", "why_tests_cant": "aliasing of a mutable list; needs a history argument", "anchors": ["rose/optimisation/particle_swarm_optimisation.py::Particle.evaluate", "rose/optimisation/particle_swarm_optimisation.py::Particle.update_position"]}
{"id": "C66", "title": "The residual depends only on the tried parameter values", "statement": "Evaluating the optimisation residual for given parameter values gives the same value whatever parameter values were evaluated before; each value is written to exactly the attribute it belongs to.", "quantifier": "all histories of evaluations and all parameter layouts", "why_tests_cant": "history property; ordering of a flattened mapping", "anchors": ["rose/optimisation/optimisation.py::Optimisation.residual_function"]}
{"id": "C67", "title": "The Kalman update is a variance-reducing convex combination", "statement": "For independent measurements each updated state component lies between prediction and measurement, its variance is non-negative and not larger than the smaller of predicted and measurement variance, the covariance stays diagonal and the gain lies between 0 and 1, at every step of a run.", "quantifier": "all measurement sequences, variances and initial states", "why_tests_cant": "invariant over unbounded runs", "anchors": ["rose/utils/Kalman_Filter.py::KalmanFilter.update_process_covariance_matrix", "rose/utils/Kalman_Filter.py::KalmanFilter.kalman_gain"]}
{"id": "C68", "title": "The Kalman gain is optimal for dependent measurements", "statement": "For dependent measurements the gain solves gain * (H P H' + R) = P H' and the updated covariance remains symmetric.", "quantifier": "all covariance matrices", "why_tests_cant": "matrix identity", "anchors": ["rose/utils/Kalman_Filter.py::KalmanFilter.kalman_gain"]}
{"id": "C69", "title": "The vibration measure leaves the given signal unchanged and uses disjoint frequency bands", "statement": "Computing the vibration level does not change the caller's signal array, so calling it twice on the same signal gives the same value; every frequency belongs to at most one third-octave band and the bands cover one contiguous range.", "quantifier": "all signals and frequencies", "why_tests_cant": "aliasing and coverage of a continuum", "anchors": ["rose/utils/Hmax.py::HrsmMax"]}
{"id": "C70", "title": "Log-normal random fields have the requested mean and variance", "statement": "The mean and standard deviation handed to the underlying normal field are such that the exponential of a normal variable with these moments has exactly the requested mean and coefficient of variation.", "quantifier": "all means and coefficients of variation", "why_tests_cant": "analytic identity over reals", "anchors": ["rose/utils/random_field.py::create_rf"]}
{"id": "C71", "title": "Soil layering for the dynamic stiffness has consistent thicknesses", "statement": "The layering generated from top levels contains every soil layer in order, each thickness being the difference between its own and the next top level, so thicknesses add up to the depth of the last top; the half-space is last.", "quantifier": "all layer lists", "why_tests_cant": "universal over lists", "anchors": ["rose/utils/wolf_utils.py::create_layering_for_wolf"]}
{"id": "C72", "title": "The reported interaction force of a wheel is minus its contact force", "statement": "When the train is loaded by its weight only, the wheel-rail interaction force reported for each wheel after a time step equals minus the contact force of the last evaluation, whatever the displacement, irregularity and wheel mass.", "quantifier": "all displacements, wheel masses, contact parameters and wheel counts", "why_tests_cant": "universal over states; the value is recovered from the combined force vector", "anchors": ["rose/model/train_track_interaction.py::CoupledTrainTrack.get_interaction_forces_history", "rose/model/train_track_interaction.py::CoupledTrainTrack.update_force_vector_contact"]}
{"id": "C73", "title": "The contact element of a wheel contains the wheel", "statement": "At every time step the rail element on which a wheel is placed is one whose first node lies at or before and whose second node lies at or beyond the wheel, wherever the rail starts.", "quantifier": "all rails along the x axis, origins, node spacings and wheel histories moving at most one element per step", "why_tests_cant": "universal over positions; tests start the rail at the origin", "anchors": ["rose/model/train_track_interaction.py::CoupledTrainTrack.initialize_track_elements", "rose/model/boundary_conditions.py::MovingPointLoad.set_active_elements"]}
{"id": "C74", "title": "Wheels do not remove other loads from the track", "statement": "External loads acting on the track stay in the force vector of every iteration, also at the degrees of freedom under a wheel.", "quantifier": "all track loads and wheel positions", "why_tests_cant": "universal over loads; needs combined load cases", "anchors": ["rose/model/train_track_interaction.py::CoupledTrainTrack.set_wheel_load_on_track"]}
{"id": "C75", "title": "The suspension of a generated train is a passive support", "statement": "For every train produced by the train generators, moving or tilting the whole train as a rigid body produces no suspension or damper force, the suspension never stores negative energy, the dampers never generate energy, and the static wheel loads add up to the weight of the train.", "quantifier": "all train types, all locomotive and wagon types, all numbers of vehicles, all displacement and velocity vectors", "why_tests_cant": "universal over numbers of vehicles and displacement vectors; the tests compare a few matrix entries of one cart", "anchors": ["rose/pre_process/default_trains.py::set_train", "rose/pre_process/default_trains.py::build_cargo_train", "rose/model/train_model.py::Cart", "rose/model/train_model.py::Bogie"]}
{"id": "C76", "title": "Settlement by the Li and Selig model follows the power law of each layer", "statement": "For a first calculation with the Li and Selig model the settlement reported for a node is the sum over the train types and the layers of its soil profile of a*(largest deviatoric stress/strength)^m*(number of loads)^b*thickness, minus its value at the first report; the stress is the largest shear stress under a strip load computed from the peak force of the type at the node.", "quantifier": "all soil profiles with positive strength, all traffic compositions, nodes, reporting intervals and initial ages", "why_tests_cant": "the law has to hold for every profile, node and report; tests compare a few stored curves", "anchors": ["rose/model/accumulation_model.py::LiSelig.settlement", "rose/model/accumulation_model.py::LiSelig.dev_stress"]}
{"id": "C77", "title": "Settlement by the Varandas model of one train type follows the Varandas law", "statement": "For a first calculation with the Varandas model and one train type the settlement reported at a node after n loads is the settlement of one load times the sum of (1/k)^beta for k from 1 to n; the settlement of one load is the Varandas integral over the force level (trapezoidal rule) divided by the reference constant.", "quantifier": "all model parameters, peak forces, numbers of cycles and reporting intervals", "why_tests_cant": "universal over parameters and the number of cycles", "anchors": ["rose/model/accumulation_model.py::Varandas.settlement"]}
{"id": "C78", "title": "Soil layers are classified by the end of their name", "statement": "The parameters a, b and m of a layer are those of the soil class given by the part of the layer name after the last underscore, every such part belongs to at most one class, and a layer whose name ends otherwise makes the calculation fail with a ValueError.", "quantifier": "all layer names and soil profiles", "why_tests_cant": "universal over names; tests use a few names", "anchors": ["rose/model/accumulation_model.py::LiSelig.__init__", "rose/model/accumulation_model.py::LiSelig.__classify"]}
{"id": "C79", "title": "Particles keep half their velocity and are pulled to the best position found so far", "statement": "In every iteration the velocity of a particle becomes half the old velocity plus twice a random number times the distance to the best position evaluated so far by the swarm, and the position moves by the velocity, limited to the bounds; all particles start at the given start position.", "quantifier": "all cost functions that never have the value -1, random draws, numbers of particles and iterations", "why_tests_cant": "law over all random executions and all iterations", "anchors": ["rose/optimisation/particle_swarm_optimisation.py::Particle.update_velocity", "rose/optimisation/particle_swarm_optimisation.py::Particle.update_position", "rose/optimisation/particle_swarm_optimisation.py::PSO"]}
{"id": "C80", "title": "The residual compares every requested result with its observation", "statement": "The residual of an optimisation contains, for every requested result name and index, the largest absolute value over the requested time steps minus the observation.", "quantifier": "all models, requests and observations", "why_tests_cant": "universal over requests; the optimisation is not tested at all", "anchors": ["rose/optimisation/optimisation.py::Optimisation.residual_function"]}
{"id": "C81", "title": "The running vibration level is an exponentially weighted moving average, largest overall", "statement": "For every band the reported maximum is the largest value of the square root of the moving average of the squared (from the fourth band on twice differentiated) filtered signal, with weights decreasing exponentially with time constant 2 and cut off after 8; the reported maximum over the middle metre is the largest of these values at the samples of the middle metre, is never negative and never exceeds the overall maximum.", "quantifier": "all signals, sample distances and filters", "why_tests_cant": "universal over signals and arbitrary filters", "anchors": ["rose/utils/Hmax.py::HrsmMax.effective_values"]}
{"id": "C82", "title": "Switching a direction of a node changes exactly that direction", "statement": "Activating or deactivating direction 0, 1 or 2 of a node changes the x, y or rotation direction of that node and nothing else about it; other direction numbers change nothing. The number of degrees of freedom of a node is its number of active directions, and the total of a model part is the number of equation numbers it collects from its nodes when these have numbers in all directions of the part.", "quantifier": "all nodes, directions, model parts and numberings", "why_tests_cant": "universal over nodes and parts; tests use single nodes with all directions active", "anchors": ["rose/model/geometry.py::Node.set_dof", "rose/model/geometry.py::Node.ndof", "rose/model/model_part.py::ModelPart.calculate_total_n_dof"]}
{"id": "C83", "title": "Reported element forces are the internal forces of each element", "statement": "After a calculation a two-node element reports, in the active directions of its model part, the mean of its end forces in its own axes, that is, stiffness times deformation of this element with one sign convention for all orientations; inactive directions are zero and a rigid motion gives no force. For a rail this is the normal force, shear force and mean bending moment belonging to the displacements of its ends.", "quantifier": "all meshes, stiffnesses, element directions and displacements", "why_tests_cant": "universal over displacement fields and element orientations; tests check single horizontal or vertical elements", "anchors": ["rose/model/global_system.py::GlobalSystem.calculate_force_in_elements", "rose/model/utils.py::rotate_aux_matrix", "rose/model/geometry.py::Element.assign_force"]}
{"id": "C84", "title": "Initialising a system again gives the system its present settings describe", "statement": "Initialising a system, then initialising it again without changes, gives the same matrices, the same numbering and the same degrees of freedom. When parts, stiffnesses or constraints are changed in between and the matrices are cleaned, the second initialisation gives the system that a freshly built model with the new settings would give: earlier constraints leave no trace.", "quantifier": "all meshes, model parts, loads, constraints and damping settings, and all changes between the runs", "why_tests_cant": "universal over two successive runs and what changes in between; tests initialise each model once", "anchors": ["rose/model/global_system.py::GlobalSystem.initialise", "rose/model/global_system.py::GlobalSystem.trim_all_global_matrices", "rose/model/train_track_interaction.py::CoupledTrainTrack.clean_model"]}
{"id": "C85", "title": "Global matrices are symmetric, positive semi-definite and carry the energy of the elements", "statement": "After initialisation, with physically sensible parameters, the global stiffness, mass and damping matrices are symmetric and have no negative energy. For every displacement vector the stiffness energy is the sum of the strain energies of the elements in the displacements of their own nodes and axes, removed degrees of freedom counting as zero; likewise for mass, and for damping with the Rayleigh terms added.", "quantifier": "all meshes, numbers and kinds of model parts, element directions, parameters, constraints and displacement vectors", "why_tests_cant": "universal over meshes and displacement fields; tests compare one small matrix entry by entry", "anchors": ["rose/model/global_system.py::GlobalSystem.initialise", "rose/model/utils.py::rotate_aux_matrix", "rose/model/utils.py::reshape_aux_matrix", "rose/model/track.py", "rose/model/model_part.py"]}
{"id": "C86", "title": "The global mass matrix contains the mass of the model", "statement": "For a uniform velocity of all nodes of the model parts, twice the kinetic energy given by the global mass matrix is the total mass times the squared velocity: density times area times length for each beam element, the point masses for the vertical component, and the rod mass for the component along the rod, independent of mesh, numbering and direction of the elements.", "quantifier": "all meshes, model parts, element directions and velocities", "why_tests_cant": "universal over meshes and directions; tests check entries of one element mass matrix", "anchors": ["rose/model/global_system.py::GlobalSystem.__add_aux_matrices_to_global", "rose/model/model_part.py::TimoshenkoBeamElementModelPart.__set_translational_aux_mass_matrix", "rose/model/model_part.py::RodElementModelPart.set_aux_mass_matrix", "rose/model/track.py::Sleeper.set_aux_mass_matrix"]}
{"id": "C87", "title": "A generated track with bottom and side boundaries is statically determinate", "statement": "A horizontal track made by the mesh generator with at least two sleepers, standard rail, pads, sleepers and soil of positive stiffness, the no-displacement boundary at the bottom and the rail ends held along the rail can be initialised, and its stiffness matrix (alone or combined with mass and damping as in the implicit solvers) is positive definite: no displacement other than zero is free of energy and equilibrium has one solution. Without a side boundary the rail can slide along itself and the stiffness matrix is singular.", "quantifier": "all numbers of sleepers, rail elements per sleeper, distances, depths, stiffnesses, masses, dampers, loads and Rayleigh settings", "why_tests_cant": "universal over track sizes and parameters; tests solve a few fixed tracks", "anchors": ["rose/pre_process/mesh_utils.py::create_horizontal_track", "rose/pre_process/mesh_utils.py::add_no_displacement_boundary_to_bottom", "rose/model/global_system.py::GlobalSystem.initialise", "rose/model/global_system.py::GlobalSystem.calculate_initial_displacement", "run_rose/demo.py"]}
{"id": "C88", "title": "Each train type is generated with its own data", "statement": "Every cart, bogie and wheel of a generated train has the length, pivot distance, wheelbase, masses, inertias, stiffnesses and dampings of the data sheet of the requested train type; in a cargo train the first carts have the data of the requested locomotive and the others those of the requested wagon. The mass of the train is the number of carts times the mass of one cart with its bogies and wheels; the articulated sprinter has one bogie more than it has carts.", "quantifier": "all train types, combinations of locomotive and wagon, numbers of carts and start positions", "why_tests_cant": "universal over types, combinations and numbers of carts; tests generate a few trains", "anchors": ["rose/pre_process/default_trains.py::set_train", "rose/pre_process/default_trains.py::build_cargo_train"]}
{"id": "C89", "title": "A calculation takes every time step once, with its own size, and all nodes get its results", "statement": "Running a calculation fills the result arrays one time step after the other: the state at every time is one solver step from the state at the time before, with the size of that time step, however the time is divided into stages, and the initial state stays as it was. Afterwards every node has, at every time, the entries of the result arrays at its own degrees of freedom and zero in fixed directions. A solver that is neither static nor dynamic is rejected.", "quantifier": "all solvers, time arrays of at least two times, sets of nodes and initial states", "why_tests_cant": "universal over time arrays with any number of stages and over solvers; tests run a handful of time arrays with equal steps", "anchors": ["rose/model/global_system.py::GlobalSystem.main", "rose/model/global_system.py::GlobalSystem.calculate_stage", "rose/model/global_system.py::GlobalSystem.assign_result_to_nodes"]}
{"id": "C90", "title": "The coupled calculation starts in equilibrium", "statement": "After the initial state of the coupled model has been calculated, train and track are in static equilibrium: at every degree of freedom the stiffness times the initial displacement equals the force at the first contact evaluation. Every wheel follows the rail and is pressed on it with its own static load.", "quantifier": "all tracks, trains, contact positions, contact parameters and static loads, with a smooth rail at the start", "why_tests_cant": "universal over systems and positions; tests compare displacements of a few configurations after many time steps", "anchors": ["rose/model/train_track_interaction.py::CoupledTrainTrack.calculate_initial_state", "rose/model/train_model.py::TrainModel.calculate_initial_displacement", "rose/model/global_system.py::GlobalSystem.calculate_initial_displacement"]}
{"id": "C91", "title": "The profile along the track carries mean and spread of the scenarios", "statement": "Every coordinate of a segment in the profile carries the probability-weighted mean of the values of its scenarios at the stored time nearest to the requested one, and their weighted standard deviation. The mean lies between the values of the scenarios, only the ratios of the weights matter. The distance along the profile starts at zero and never decreases, and consecutive segments are joined at their nearest ends.", "quantifier": "all segments, scenarios, weights, values, times and coordinates", "why_tests_cant": "the values of a profile are only looked at in a figure; tests compare the file size of one figure", "anchors": ["rose/post_processing/plot_profile.py::plot_profile", "rose/post_processing/plot_profile.py::weighted_avg_and_std", "rose/post_processing/plot_profile.py::compute_cumulative_distance", "rose/post_processing/plot_profile.py::find_nearest"]}
{"id": "C92", "title": "Collecting a batch weighs every scenario of a segment with its probability", "statement": "After the results of a batch are collected, the weighted value of every segment is the sum, over all its result files, of the value times the probability of the scenario, and every scenario keeps its own value and probability. If the probabilities add up to one, the weighted value lies between the values of the scenarios. The order in which the directory lists the files does not matter. A file of an unknown segment or scenario stops the collection.", "quantifier": "all soil data, result files and orders of the files", "why_tests_cant": "universal over directories and their order; there are no tests of the scripts", "anchors": ["run_rose/batch_post_process.py::get_batch_dynamic_stiffnesses", "run_rose/batch_post_process.py::get_batch_cumulative_settlement", "run_rose/batch_post_process.py::calculate_weighted_values"]}
{"id": "C93", "title": "The file for the map has a line for every coordinate of every segment with results", "statement": "Every line written for the map carries a coordinate of its segment and the weighted value of that segment, and every coordinate of every segment with results has its line. The same holds for the file with the numbers of scenarios.", "quantifier": "all soil data, result files and orders of the files", "why_tests_cant": "universal over directories and their order; there are no tests of the scripts", "anchors": ["run_rose/batch_post_process.py::write_gis_csv_2", "run_rose/batch_post_process.py::get_and_write_n_scenarios_per_segment"]}
{"id": "C94", "title": "Segment and scenario are read from the name of a file", "statement": "A file name made of parts joined by underscores gives as segment the last part with the word segment in it and as scenario the last part with the word scenario, in upper or lower case; without such a part the name is empty. The names found are those of the soil data. The name of a calculation must have exactly three parts.", "quantifier": "all file names", "why_tests_cant": "universal over strings; there are no tests of the scripts", "anchors": ["run_rose/batch_post_process.py::get_segment_and_scenario_from_fn", "run_rose/batch_post_process.py::get_batch_dynamic_stiffnesses"]}
{"id": "C95", "title": "Dynamic stiffness is the largest force over the largest displacement", "statement": "The dynamic stiffness of a node is the largest absolute force divided by the largest absolute displacement over all times. It is never negative, and for a spring it is the stiffness of the spring whatever the history.", "quantifier": "all histories of displacement and force", "why_tests_cant": "universal over histories; there are no tests of the scripts", "anchors": ["run_rose/batch_post_process.py::calculate_dynamic_stiffness", "run_rose/batch_post_process.py::get_batch_dynamic_stiffnesses"]}
{"id": "C96", "title": "Static reference solution is the deflection of a simply supported beam", "statement": "The deflections computed for a beam on two supports under a point force are those of the beam equation: no deflection and no moment at the supports, no load left and right of the force, deflection, slope and moment continuous at the force, and a jump of the shear force equal to the force. These conditions determine them. A force at one point deflects another as much as the other way round.", "quantifier": "all beams, element sizes, forces and positions of the force on the beam", "why_tests_cant": "universal over real parameters; tests compare a few numbers", "anchors": ["analytical_solutions/simple_supported.py::SimpleSupportEulerStatic"]}
{"id": "C97", "title": "A chain of beam elements gives the exact deflections at its nodes", "statement": "A straight beam of equal elements on two supports or clamped at one end, under any vertical forces at nodes: the assembled system has a static solution, and the deflections at all nodes are those of the beam equation (those of the static reference solution), plus the deflection from shear when a shear factor is given. They do not depend on the number of elements, on the mass or on the damping.", "quantifier": "all numbers of elements, element lengths, sections, materials, nodal forces, damping", "why_tests_cant": "unbounded number of elements and real parameters; the repository compares one mesh with the reference within a tolerance", "anchors": ["rose/model/global_system.py::GlobalSystem.initialise", "rose/model/model_part.py::TimoshenkoBeamElementModelPart", "analytical_solutions/simple_supported.py::SimpleSupportEulerStatic"]}
{"id": "C98", "title": "Undamped reference solution obeys the equation of motion of the beam", "statement": "The displacements computed for a beam on two supports under a suddenly applied force at mid-span are those of a motion that starts at rest, has no deflection and no moment at the supports and obeys the equation of motion under the given number of terms of the sine series of the force.", "quantifier": "all beams, element sizes, numbers of modes and times", "why_tests_cant": "partial differential equation over all points and times; tests compare stored numbers", "anchors": ["analytical_solutions/simple_supported.py::SimpleSupportEulerNoDamping"]}
{"id": "C99", "title": "Damped reference solution obeys the damped equation of motion of the beam", "statement": "The same with damping proportional to mass and stiffness.", "quantifier": "all beams, element sizes, numbers of modes, damping coefficients and times", "why_tests_cant": "partial differential equation over all points and times; tests compare stored numbers", "anchors": ["analytical_solutions/simple_supported.py::SimpleSupportEulerWithDamping"]}
{"id": "C100", "title": "Reference solution with shear deformation swings with the frequencies of the beam with shear", "statement": "Displacement and velocity belong to one motion that starts at rest with its ends on the supports. It is a sum of modes; each swings about 1 + phi times the deflection of the beam without shear under its share of the force, with a natural frequency of the beam with shear deformation.", "quantifier": "all beams, element sizes, numbers of modes and times, for exact roots of the frequency equation", "why_tests_cant": "partial differential equations over all points and times; tests compare stored numbers", "anchors": ["analytical_solutions/simple_supported.py::SimpleSupportTimoshenkoNoDamping"]}
{"id": "C101", "title": "Reference solution for the clamped beam obeys the equation of motion and reports its velocity", "statement": "Displacement and velocity of a beam with one clamped and one free end under a suddenly applied force at the free end belong to one motion that starts at rest, keeps the end conditions and obeys the equation of motion under a load made of the shapes of such a beam.", "quantifier": "all beams, element sizes, numbers of modes and times, for exact roots of the frequency equation", "why_tests_cant": "partial differential equation over all points and times; tests compare stored numbers", "anchors": ["analytical_solutions/cantilever_beam.py::PulseLoadNoDamping"]}
{"id": "C102", "title": "Reference solution for the rod obeys the wave equation", "statement": "Displacement, pressure and velocity of a rod under a sudden pressure belong to one motion that obeys the wave equation; the rod is held at one end, has the given pressure at the other, starts at rest without displacement and repeats after four travels of the wave.", "quantifier": "all rods, numbers of terms and times", "why_tests_cant": "partial differential equation over all points and times; tests compare stored numbers", "anchors": ["analytical_solutions/analytical_wave_prop.py::OneDimWavePropagation"]}
{"id": "C103", "title": "Reference solution for the beam with a hinge", "statement": "The deflection computed for a force on the clamped part is that of the end of the clamped beam under this force; for a force beyond the hinge it is that under the share of the force which the right part passes on to the hinge. Off the beam it is zero.", "quantifier": "all lengths, stiffnesses, forces and positions", "why_tests_cant": "universal over real parameters; tests compare a few numbers", "anchors": ["analytical_solutions/beam_with_hinge.py::BeamWithHinge"]}
{"id": "C104", "title": "Reference solution for the vehicle on a beam is in balance at every time", "statement": "Every computed state follows from the one before by constant average acceleration, the sprung mass is in balance with spring and damper, and the beam is in balance with the weight, the inertia of the wheel and the force of spring and damper. The time step is the requested one.", "quantifier": "all vehicles, beams, speeds and time steps", "why_tests_cant": "all steps of a recursion over real parameters; tests compare a maximum", "anchors": ["analytical_solutions/moving_vehicle.py::TwoDofVehicle"]}
{"id": "C105", "title": "Moving force before the change of foundation stiffness", "statement": "The displacements given for times before the force reaches the change of stiffness are those of an endless beam on two foundations under a force with constant speed: no load left and right of the force, a jump of the shear force at the force, deflection, slope, moment and shear force continuous at the change of stiffness, nothing far away and long before. A force faster than the waves of either foundation is rejected.", "quantifier": "all beams, foundations, forces, increasing positions and speeds below the critical one", "why_tests_cant": "partial differential equation over all points and times; the test compares stored numbers", "anchors": ["analytical_solutions/winkler.py::MovingLoad"]}
{"id": "C106", "title": "Moving force after the change of foundation stiffness", "statement": "The displacements given for later times are the partial sums of the inverse of a Laplace transform that solves the transformed equation of the beam, which moves on from where it was when the force reached the change of stiffness; deflection, slope, moment and shear force are continuous there and nothing moves far away.", "quantifier": "all beams, foundations, forces, increasing positions, numbers of terms and speeds below the critical one", "why_tests_cant": "differential equation over all points and all complex arguments; the test compares stored numbers", "anchors": ["analytical_solutions/winkler.py::MovingLoad.time_high", "analytical_solutions/winkler.py::MovingLoad.coefficients_bar"]}
{"id": "C107", "title": "The displacement at a place and a time does not depend on what else is asked for", "statement": "Two lists of positions with the same last position give the same displacement for a place and a time that belong to both, whatever other places they have and in whatever order. On equal foundations the deflection before the force reaches zero depends only on the distance from the force.", "quantifier": "all lists of positions, beams, foundations and forces", "why_tests_cant": "relates two runs for all inputs", "anchors": ["analytical_solutions/winkler.py::MovingLoad.solve"]}
{"id": "C108", "title": "The energy of a model changes by the loads only and is never raised by damping", "statement": "In every motion that balances inertia, damping, stiffness and load of an initialised model, the energy of its elements changes at the power of the loads minus a loss that is never negative, and is zero without dampers and Rayleigh damping. Without load the energy does not grow; without load and damping it stays the same.", "quantifier": "all meshes, parts, loads, constraints, dampings with sensible values and all motions", "why_tests_cant": "differential statement over all motions of all models", "anchors": ["rose/model/global_system.py::GlobalSystem.initialise", "rose/model/model_part.py", "rose/model/utils.py"]}
{"id": "C109", "title": "The response of a model is reciprocal, superposes and is unique", "statement": "The forces of one static state work along the displacements of another as much as the other way round; in particular the displacement at one place under a unit force at another equals that at the other under a unit force at the one. Combined loads give combined motions. On a generated track that is held below and lengthwise the loads and the first state settle the motion.", "quantifier": "all meshes, parts, constraints, dampings with sensible values, loads and motions", "why_tests_cant": "relates several states and motions of all models", "anchors": ["rose/model/global_system.py::GlobalSystem.initialise", "rose/model/model_part.py", "rose/pre_process/mesh_utils.py"]}
{"id": "C110", "title": "The position of nodes in the mesh and the order of parts, elements and loads do not matter", "statement": "When the nodes get other positions in the mesh and parts, elements within a part and loads come in another order, the model is initialised as well, has as many degrees of freedom, of the same nodes and directions, and the same stiffness, mass, damping and load for them; so it moves in the same way. The order of the nodes within a part is kept.", "quantifier": "all meshes, parts, loads, constraints, dampings and renumberings", "why_tests_cant": "relates two runs for all inputs and permutations", "anchors": ["rose/model/global_system.py::GlobalSystem.initialise", "rose/model/utils.py", "rose/model/geometry.py"]}
{"id": "C111", "title": "It does not matter from which end an element is written", "statement": "When elements are written from their second node to their first, the model is initialised as well, has as many degrees of freedom, of the same nodes and directions, and the same stiffness, mass, damping and load for them; so it moves in the same way.", "quantifier": "all meshes, loads, constraints, dampings, all elements of rods, and all elements of beams and rails with equal springs at both ends", "why_tests_cant": "relates two runs for all inputs", "anchors": ["rose/model/utils.py::calculate_rotation", "rose/model/utils.py::rotate_aux_matrix", "rose/model/global_system.py::GlobalSystem.initialise"]}
{"id": "C112", "title": "Damping of the coupled system is what was asked for", "statement": "The coupled system has the stiffness, mass, forces and dashpots of track and train, without any coupling in the matrices. With Rayleigh damping every mode of the track or the train at one of the two frequencies is damped with the given ratio on top of the dashpots; this is independent of the damping given to the track, and a free motion of the train, which no spring and no dashpot resists, is not damped. Damping never adds power. Asking for the initial state again changes nothing.", "quantifier": "all tracks, trains, dampings, modes and motions", "why_tests_cant": "relates the damping matrix to all motions of all models", "anchors": ["rose/model/train_track_interaction.py::CoupledTrainTrack.combine_global_matrices", "rose/model/train_track_interaction.py::CoupledTrainTrack.calculate_initial_state", "rose/model/global_system.py::GlobalSystem.calculate_rayleigh_damping"]}
{"id": "C113", "title": "Contact between train and track neither creates nor destroys energy", "statement": "A train standing on a track, driven by the forces the coupled model computes, has an energy (kinetic, springs, Hertz contact of every wheel, minus the work of the other forces) that changes only by damping: it is constant without damping and never grows with it. When the wheels roll within their elements, it grows exactly by the forces that the wheels exert times the rate at which the deformed rail rises under them less the rate of the irregularities. This holds for any number of wheels, also when two of them stand on the same rail element.", "quantifier": "all tracks, trains, motions and times, wheels in contact or not", "why_tests_cant": "a statement about every motion over all times; tests compare a few numbers", "anchors": ["rose/model/train_track_interaction.py::CoupledTrainTrack.update_force_vector_contact", "rose/model/train_track_interaction.py::CoupledTrainTrack.calculate_wheel_rail_contact_force", "rose/model/train_track_interaction.py::CoupledTrainTrack.get_disp_track_at_wheels", "rose/model/train_track_interaction.py::CoupledTrainTrack.set_wheel_load_on_track"]}
{"id": "C114", "title": "A demonstration calculation covers its times and the train runs at its speed", "statement": "A demonstration calculation covers exactly the initialisation and the running time, in equally spaced steps of the requested size; the train stands during the initialisation and runs at its speed from the end of it; a batch calculation that changes the speed is the same as setting the train up with it; the calculation has two stages exactly when the two step sizes differ; taking every f-th sleeper keeps the length of the track and the soil stiffness and damping per metre.", "quantifier": "all initialisation and running times, step sizes, speeds, start positions, segments, sleeper factors", "why_tests_cant": "the demonstrations take minutes each and assert nothing; rounding of step numbers depends on the ratio of the inputs", "anchors": ["run_rose/demo.py::time_integration", "run_rose/demo.py::create_model", "run_rose/demo.py::geometry", "run_rose/demo.py::soil_parameters", "run_rose/batch_calculation.py::calculate"]}
{"id": "C115", "title": "A hinge joins the rail with the stiffness its fixity factor stands for", "statement": "A beam with springs at its ends stores the least energy that the beam and its springs can have when the beam ends turn against their nodes. A hinge made from a fixity factor f gives the rail ends at its node the fixity f and joins the two rail elements by a rotational spring of the stiffness of the hinge; a factor that is not between 0 and 1 is refused; the mass of the hinge is part of the model.", "quantifier": "all rails and inner hinge positions, fixity factors, beam data, displacements, numbers of rail elements between sleepers", "why_tests_cant": "a few factors on one rail say nothing about the energy for all displacements or about the dependence on the number of elements between sleepers", "anchors": ["rose/pre_process/mesh_utils.py::create_hinge_model_part", "rose/pre_process/mesh_utils.py::add_semi_rigid_hinge_at_x", "rose/model/track.py::Hinge.calculate_hinge_stiffness", "rose/model/model_part.py::TimoshenkoBeamElementModelPart.set_aux_stiffness_matrix", "run_rose/demo_semi_rigid.py::create_model"]}
{"id": "C116", "title": "Every part of a train has a node of its own that carries its numbers", "statement": "After a train is initialised each cart, bogie and wheel has its own node among the nodes of the train. Each node is listed once and carries exactly the numbers of the degrees of freedom of its part, so that each number is found at exactly one node and direction. This holds for bogies that carts share and whatever nodes existed before. When the train is joined with a track all its numbers are raised by the number of degrees of freedom of the track.", "quantifier": "all trains (any carts, shared bogies, wheels), all start positions, all hash functions, all earlier states of the mesh", "why_tests_cant": "tests use one train with clearly separated parts and one initialisation", "anchors": ["rose/model/train_model.py::TrainModel.initialise", "rose/model/train_model.py::TrainModel.set_mesh", "rose/model/train_model.py::TrainModel.reset_mesh", "rose/model/train_model.py::TrainModel.initialise_ndof", "rose/model/geometry.py::Mesh.add_unique_nodes_to_mesh", "rose/model/train_track_interaction.py::CoupledTrainTrack.initialise_ndof"]}
{"id": "C117", "title": "The equations of a train belong to its parts", "statement": "After TrainModel.initialise every part of the train (cart, bogie, wheel; a bogie shared by two carts once) that has mass and stiffness in a direction it can move in has one row of the equations, no row belongs to two parts and no row to none. The row found by the number at the node of a part holds the mass (or inertia) of this part on the diagonal of the mass matrix, its weight in the force vector (zero for rotations) and the stiffness and damping assembled for it. Directions without mass or without stiffness have neither a row nor a number. Behind a track with nt degrees of freedom the results of a part are the columns nt + number of the solver, and zero in directions without a number.", "quantifier": "all trains, also with shared bogies (whose matrices are too large at first), all masses and stiffnesses including zero, all places of the parts with parts of one kind more than 1e-9 apart, all earlier meshes, all sizes of the track", "why_tests_cant": "The matrices count a shared bogie once per cart, numbers and rows are removed by two separate procedures that walk in different orders, and that both give the same result for every train is not visible in examples.", "anchors": ["rose/model/train_model.py::TrainModel.initialise", "rose/model/train_model.py::TrainModel.reset_mesh", "rose/model/train_model.py::TrainModel.trim_global_matrices", "rose/model/global_system.py::GlobalSystem.recalculate_dof", "rose/model/train_track_interaction.py::CoupledTrainTrack.initialise_ndof"]}
{"id": "C118", "title": "A coupled run gives every node and element of track and train the results of all times", "statement": "After running the coupled train and track, the solver has gone through all times step by step from the initial state; every node of the track and every part of the train reports, at every time, the values of its own equations (those of the train behind those of the track); every element of the track reports at every time the mean end force that its stiffness gives for the displacements its nodes report at that time, so that the force of a soil spring is its stiffness times the displacement found by the solver. The run ends whenever the steps of the solver do, also for a single time.", "quantifier": "all time arrays, tracks, trains, elements, numbers of equations, initial states and solver steps", "why_tests_cant": "tests compare a few displacement histories with references; which results end up in which node and element depends on the numbering of both meshes, the stages and the order of the final assignments", "anchors": ["rose/model/train_track_interaction.py::CoupledTrainTrack.main", "rose/model/train_track_interaction.py::CoupledTrainTrack.finalise", "rose/model/train_track_interaction.py::CoupledTrainTrack.assign_results_to_nodes", "rose/model/train_track_interaction.py::CoupledTrainTrack.calculate_stage", "rose/model/global_system.py::GlobalSystem.calculate_force_in_elements", "rose/model/global_system.py::GlobalSystem.finalise"]}
{"id": "C119", "title": "The soil carries the load", "statement": "On a generated horizontal track whose lower soil ends are fixed and whose rails and sleepers can move vertically: in static equilibrium the vertical loads on rails and sleepers add up to the sum of soil stiffness times sleeper displacement, however the track bends; and in every motion the vertical momentum of the track (rail elements with the mean velocity of their bent axis, rail pads with the mean of their ends, sleepers, and a third of the soil) changes by the sum of the vertical loads minus spring and damper forces of the soil, minus the mass and stiffness terms of Rayleigh damping when it is used. The track of the scripts, with its boundaries and parameters above the tolerance of the solver, is of this kind.", "quantifier": "all numbers of sleepers and rail elements per sleeper, spacings, depths, parameters, boundary conditions and load conditions, all equilibria and motions of the assembled system", "why_tests_cant": "a test compares displacements of one track with stored numbers; that no force is lost or added anywhere in the assembly, for every track, load and motion, is a statement about all of them", "anchors": ["rose/pre_process/mesh_utils.py::create_horizontal_track", "rose/model/global_system.py::GlobalSystem.initialise", "rose/model/global_system.py::GlobalSystem.add_model_parts_to_global_matrices", "rose/model/model_part.py::TimoshenkoBeamElementModelPart.set_aux_mass_matrix", "rose/model/model_part.py::RodElementModelPart.set_aux_stiffness_matrix"]}
{"id": "C120", "title": "The script for the settlement of a batch writes a result for every scenario", "statement": "After the script that computes the cumulative settlement of a batch has ended, the output directory holds for every scenario with results for the three trains (intercity, sprinter, cargo) one file, computed from the soil forces of the three files of that scenario with the traffic of the script, for one hundred days at node 100; the name of the file gives back segment and scenario of the input. The script stops when the numbers of files of the three trains differ.", "quantifier": "all directories: entries in any order, names, contents", "why_tests_cant": "The script is run on directories of results that differ from project to project; every error inside the loop is swallowed, so a run looks the same whether or not anything was written.", "anchors": ["run_rose/batch_varandas.py::main", "rose/model/accumulation_model.py::Varandas.settlement", "run_rose/batch_post_process.py::get_segment_and_scenario_from_fn"]}
{"id": "C121", "title": "Collecting the results of calculations keeps every scenario and writes it for the map", "statement": "After the result files of a batch are collected, every segment holds all its scenarios with the lowest displacement of the requested node, the probability and the stiffness; weighing gives the sums of displacement and of stiffness times probability over all scenarios of the segment; and the file for the map gets a line with the four values for every coordinate of every segment.", "quantifier": "all soil data, result files in any order, nodes, stiffness files and sequences of weighings", "why_tests_cant": "The order in which a directory lists its files is not fixed by the operating system, and the number of segments and scenarios has no bound.", "anchors": ["run_rose/batch_post_process.py::get_results", "run_rose/batch_post_process.py::calculate_weighted_values", "run_rose/batch_post_process.py::write_gis_csv"]}
{"id": "C122", "title": "The files that the scripts write hold the histories of the run", "statement": "After a coupled run, the file written by the demonstration (every time) or by the batch calculation (every n-th time from the first on) holds a row for each node and element of rail, rail pads, sleepers, soil and train: the vertical displacement of the node, the vertical force of the element and the place of the node along the track. The rows of the soil give, element by element, the displacement of the sleeper, that of the fixed ground and the force of the spring, which is stiffness times displacement of the sleeper; the dynamic stiffness taken from the file is the stiffness of the soil; and each soil element carries the number of its soil part.", "quantifier": "all tracks, trains, runs (states at all times), output intervals, soil parts and node numbers", "why_tests_cant": "The number of nodes, elements, soil parts and times has no bound; the tests write no result files and would have to compare them with the state of the solver at every time.", "anchors": ["run_rose/demo.py::write_results", "run_rose/batch_calculation.py::write_results", "run_rose/batch_post_process.py::calculate_dynamic_stiffness"]}
{"id": "C123", "title": "The written soil matrices are exactly the soil in the written track matrices", "statement": "The soil stiffness and soil damping written by the demonstration belong to one spring and one damper between sleeper and ground for each element of each soil part, with the values of that part, at the written degrees of freedom. Taking them away from the written global stiffness and damping leaves the matrices of rail, rail pads and sleepers alone, which do not depend on the values of the soil, so that the soil of a segment can be exchanged afterwards. With Rayleigh damping the damping that is left also holds the stiffness-proportional share of the soil.", "quantifier": "all tracks, numbers of soil parts and elements, stiffnesses, dampings, boundary conditions, displacement fields", "why_tests_cant": "It relates the assembly of all parts of a track of any size to a second summation in the script; equality of matrices for all soils and displacement fields is no finite check.", "anchors": ["run_rose/demo.py::write_results", "rose/model/global_system.py::GlobalSystem.initialise", "rose/model/model_part.py::RodElementModelPart.initialize"]}
{"id": "C124", "title": "The soil carries the train: only weight and soil change the momentum of train and track", "statement": "In a coupled run the total vertical momentum of train and track changes only by the weight of the train, the loads on the track and the forces of springs and dampers of the soil (and, if asked for, the Rayleigh terms): the forces between wheels and rails, of the suspensions, of rail pads and of the bending rails cancel, while the train rolls over any number of elements. At rest, and in the initial state of the run, the spring forces of the soil add up to the weight of the train.", "quantifier": "all generated tracks, trains, irregularities, contact laws, damping settings, motions and times; all positions of the wheels", "why_tests_cant": "It is a conservation law over all motions of train and track of any size in continuous time; tests run single settings and compare displacements at single nodes.", "anchors": ["rose/model/train_track_interaction.py::CoupledTrainTrack.update_force_vector_contact", "rose/model/train_track_interaction.py::CoupledTrainTrack.calculate_initial_state", "rose/model/train_track_interaction.py::CoupledTrainTrack.combine_global_matrices", "rose/model/train_model.py::TrainModel.initialise", "rose/model/global_system.py::GlobalSystem.initialise"]}
{"id": "C125", "title": "The soil under joined and hinged tracks carries the loads", "statement": "Take tracks of several segments, created one after the other and combined into one track as the demo scripts do, each segment with its own soil stiffness, damping and mass. In static equilibrium the vertical loads on rails and sleepers add up exactly to the sum over all segments of soil stiffness times sleeper displacement. In motion the vertical momentum of the track changes by the loads minus the spring and damper forces of all soils (and the Rayleigh terms). The same holds with a semi-rigid hinge in the rail, whatever its stiffness, and for any model of level beams, upright springs and point masses with respect to its springs that end on the ground. With the bottom and side constraints of the scripts, rails and sleepers keep their vertical degree of freedom and the lower ends of the soil lose it.", "quantifier": "all lists of segments with at least two sleepers in all, all sleeper distances, rail elements per sleeper, depths, rail, pad, sleeper and soil values, all loads on rails and sleepers, all solutions; all structures of level beams and upright springs", "why_tests_cant": "Tests compare displacements of one small combined track with stored numbers; they cannot show that no force is lost at the joints between segments or at a hinge for every number of segments and every motion.", "anchors": ["rose/pre_process/mesh_utils.py::combine_horizontal_tracks", "rose/pre_process/mesh_utils.py::create_horizontal_track", "rose/pre_process/mesh_utils.py::create_hinge_model_part", "rose/pre_process/mesh_utils.py::add_no_displacement_boundary_to_bottom", "rose/model/global_system.py::GlobalSystem.initialise", "run_rose/demo.py::create_model", "run_rose/demo_semi_rigid.py::create_model"]}
{"id": "C126", "title": "Joined tracks are well posed", "statement": "A track combined from segments, with the constraints of the demo scripts at the bottom of all soils and at both ends of the rail, can be created and initialised for all loads on its nodes, and its stiffness matrix, alone or with mass and damping added in any proportion, has positive energy for every displacement but zero. So static equilibrium and every step of the implicit solvers have at most one solution.", "quantifier": "all lists of segments with at least two sleepers in all, all sleeper distances, rail elements per sleeper, depths, positive stiffnesses, all loads and Rayleigh damping values", "why_tests_cant": "A test can only invert the matrix of one particular combined track; whether the joints leave a mechanism is a statement about all numbers of segments and all displacements.", "anchors": ["rose/pre_process/mesh_utils.py::combine_horizontal_tracks", "rose/model/global_system.py::GlobalSystem.initialise", "rose/model/global_system.py::GlobalSystem.trim_all_global_matrices", "run_rose/demo.py::create_model"]}
{"id": "C127", "title": "The ground carries the whole train on any structure", "statement": "A train stands or runs on a structure of level beams, upright springs and point masses of any shape, in particular on a track combined from several segments as in the demo scripts, with or without a semi-rigid hinge in the rail. Only the weight of the train, the other loads, and the springs and dampers that end on the ground change the vertical momentum of train and structure together (and, with Rayleigh damping, its mass and stiffness terms); contact forces and all inner forces cancel, as long as no two wheels act on a common rail node at the same time (C124 shows what happens otherwise). At rest the soils of all segments together carry exactly the weight of the train and the other loads, and in the initial state of a coupled run they carry the loads of all wheels.", "quantifier": "all trains with evenly placed springs, all numbers and lengths of segments, all hinges, all motions with the wheels on the rail, no two on a common rail node, all contact coefficients and irregularities, with and without Rayleigh damping of track and coupled model", "why_tests_cant": "Tests compare a few stored displacements of one train on one short track; a force lost at a joint, a hinge or a wheel for other numbers of segments would not show.", "anchors": ["rose/model/train_track_interaction.py::CoupledTrainTrack.update_force_vector_contact", "rose/model/train_track_interaction.py::CoupledTrainTrack.calculate_initial_state", "rose/model/train_track_interaction.py::CoupledTrainTrack.combine_global_matrices", "rose/model/train_model.py::TrainModel.initialise", "rose/model/global_system.py::GlobalSystem.initialise", "rose/pre_process/mesh_utils.py::combine_horizontal_tracks", "rose/pre_process/mesh_utils.py::create_hinge_model_part"]}
{"id": "C128", "title": "Tracks with a hinge in the rail stand and are well posed", "statement": "A semi-rigid hinge with a fixity between zero and one is put into the rail of a track combined from segments, and the track is constrained as in the semi-rigid demo scripts. The hinge can be made and the model can be initialised. Rails and sleepers keep their vertical degrees of freedom whatever the fixity, also at the hinge. If the hinge has some stiffness, or if the two pieces of the rail rest on the sleepers (two sleepers at one side or at the hinge and a third one beyond it), then no displacement but zero is without energy: static equilibrium and every step of the implicit solvers have at most one solution. Without both, the rail beyond the last sleeper swings freely: there is a displacement without energy.", "quantifier": "all numbers and lengths of segments, sleeper distances and rail elements per sleeper, all positive stiffnesses, all positions of the hinge with two rail elements at each side, all fixities from zero to one, all loads, with and without Rayleigh damping", "why_tests_cant": "Tests make hinges of a few fixities in one rail and compare displacements; a missing stiffness at the hinge makes the matrices singular only for some positions of the hinge and shows as noise or a warning.", "anchors": ["rose/pre_process/mesh_utils.py::create_hinge_model_part", "rose/pre_process/mesh_utils.py::add_semi_rigid_hinge_at_x", "rose/model/track.py::Hinge.calculate_hinge_stiffness", "rose/pre_process/mesh_utils.py::combine_horizontal_tracks", "rose/model/global_system.py::GlobalSystem.initialise", "rose/model/global_system.py::GlobalSystem.trim_global_matrices_on_indices"]}
{"id": "C129", "title": "The file of a track with a hinge shows the rail as if it were in one piece", "statement": "After a run of a track with a hinge in the rail, the written file has exactly one row per rail node, in order along the track, with the place and the computed vertical displacements of that node, and one row per rail element in order; rail pads, sleepers and soil are those of their own parts. The file is the one that the script without a hinge writes for the same rail in one piece. The number of rail rows never differs from the number of rail nodes.", "quantifier": "for every rail whose nodes are apart, every position of the hinge, every stiffness of the hinge, every other part of the track, every run and every set of output times", "why_tests_cant": "The rail is put together again from parts selected by their number and by dropping repeated nodes; whether each node comes out once and in order depends on the mesh and on the place of the hinge, of which a test covers one.", "anchors": ["run_rose/demo_semi_rigid.py::write_results", "run_rose/demo_semi_rigid_rf.py::write_results", "rose/pre_process/mesh_utils.py::add_semi_rigid_hinge_at_x"]}
{"id": "C130", "title": "A batch writes for every stiffness file the result of its own soil", "statement": "A batch run over a folder reads exactly the files with the extension .json. When it ends without an error, there is for each of them, under its own name, a result file with the series that the given model gives for the soil stiffness and damping of that file times the sleeper distance, and with the frequency of that file; neither the other files nor earlier calculations of the batch change it. When it ends with an error, every result file in the folder is still either as it was before or the result of its own stiffness file. Files of other names are not touched. The order of the files in the folder does not matter. The names and tables made from the soil data are one for each scenario of each segment, with the layers of that scenario, and the names differ.", "quantifier": "for every folder of files, every model, every speed and sleeper distance, every content of the output folder, every end of the batch and every order of the files; for all soil data", "why_tests_cant": "Results of many segments are paired with names by position in four lists and the model is changed in place before each run; a shift by one, a shared object or two equal names shows only for particular sets of files.", "anchors": ["run_rose/read_wolf.py::read_wolf", "run_rose/run_wolf.py::read_file", "run_rose/batch_calculation.py::main", "run_rose/batch_calculation.py::calculate"]}
{"id": "C131", "title": "A static calculation has one answer, and a stiffer track never goes deeper under its load", "statement": "A track combined from segments and constrained as in the demo scripts has, for every set of loads on its nodes, exactly one displacement in static equilibrium; the same holds for every system of stiffness, mass and damping in any proportion, as the implicit solvers solve in each step. A single vertical load on rail or sleeper moves its node in its own direction. If the rail, the rail pads or the soil of any segment become stiffer and the masses stay the same, the node under the load does not move further, and for any set of loads the work of the loads does not increase.", "quantifier": "all lists of segments, sleeper distances, rail elements per sleeper and depths, all pairs of rail, pad and soil stiffnesses of which the second is at least the first, all loads; the general form for all models of beams, springs and point masses", "why_tests_cant": "A test compares two stored numbers for one track. That no change of stiffness anywhere can make the loaded point go deeper is a statement about all tracks, loads and changes; and a test cannot see that another answer does not exist.", "anchors": ["rose/pre_process/mesh_utils.py::combine_horizontal_tracks", "rose/model/global_system.py::GlobalSystem.initialise", "rose/model/global_system.py::GlobalSystem.trim_all_global_matrices", "rose/model/boundary_conditions.py::LoadCondition", "run_rose/demo.py::create_model"]}
{"id": "C132", "title": "Static deflections add up and are mutual", "statement": "On the same model with the same constraints, the displacement under two sets of loads, each multiplied by any number, is the sum of the displacements multiplied by these numbers. The work of one set of loads in the displacement under another set is the work of the other in the displacement under the first; so the deflection at a rail or sleeper node under a wheel on another node is the deflection at that other node under the same wheel on the first one.", "quantifier": "all models of beams, springs and point masses with physically sensible values, all constraints, all sets of loads and factors; all pairs of nodes of all joined tracks", "why_tests_cant": "Tests place one load on one track; additivity and reciprocity relate the results of different runs for all positions of the loads.", "anchors": ["rose/pre_process/mesh_utils.py::combine_horizontal_tracks", "rose/model/global_system.py::GlobalSystem.initialise", "rose/model/global_system.py::GlobalSystem.trim_all_global_matrices", "rose/model/boundary_conditions.py::LoadCondition", "run_rose/demo.py::create_model"]}
{"id": "C133", "title": "How a track is cut into segments makes no difference", "statement": "Two joined tracks with the same soil (depth, stiffness, damping) under every sleeper, one rail element per sleeper and the constraints of the scripts, cut into segments in different ways (for instance one long segment, or one segment per sleeper as in the scripts with a random field), are the same model: there is a one-to-one match of the nodes that keeps the places, the degrees of freedom of matched nodes agree, and so do the stiffness, mass and damping between them and, under the same loads, the forces. So matched nodes have the same static displacements and rotations, and every motion of one track is a motion of the other.", "quantifier": "for all ways of cutting a track, all depths, soils, rails, pads, sleeper masses, damping settings and loads", "why_tests_cant": "a test compares two given cuts of one track at a few time steps; this holds for all cuts of all tracks, for whole matrices and all motions", "anchors": ["rose/pre_process/mesh_utils.py::create_horizontal_track", "rose/pre_process/mesh_utils.py::combine_horizontal_tracks", "run_rose/demo_rf.py::create_model", "run_rose/demo_rf.py::main", "run_rose/demo_semi_rigid_rf.py::main"]}
{"id": "C134", "title": "The dictionary of a train describes the whole train", "statement": "The dictionary made of a train for the dashboard describes the whole train: a train built from these values, with one cart per cart distance, one bogie per bogie distance and one wheel per wheel distance, is the train the dictionary was made of - the same carts, bogies and wheels with the same masses, inertias, springs, dampers, lengths and places. A train built from values gives these values back.", "quantifier": "for all trains of vehicles of one kind, all trains the package offers with any number of carts and any start coordinate, and all values", "why_tests_cant": "the dictionary reads the first cart, bogie and wheel only; a test of one train cannot show for which trains that is enough", "anchors": ["rose/pre_process/default_trains.py::train_class_to_dict", "rose/pre_process/default_trains.py::set_train", "rose/pre_process/default_trains.py::build_cargo_train", "run_rose/run_optimisation.py::set_base_model"]}
{"id": "C135", "title": "Which directions of a track are calculated, how many there are and in which order", "statement": "In a track joined from segments with the constraints of the scripts, the directions that have a row in the system of equations are exactly those that can move: along x, vertical and rotation for each node of the rail, but not along x at the two ends of the rail; vertical for each sleeper; none for the lower ends of the soil. With R nodes of the rail and S sleepers there are 3 R + S - 2 rows. Rows are in the order of the mesh and, at one node, x before vertical before rotation; for one segment row 3 i is the vertical displacement of rail node i (i < R - 1) and row 3 R - 2 + i that of sleeper i. So a user who asks for a result by its row gets the node they mean.", "quantifier": "for all lists of segments, sleeper distances, numbers of rail elements per sleeper, loads, damping settings and values of rail, pads, sleepers and soil above the tolerance of 1e-8", "why_tests_cant": "which rows are removed depends on values of all matrices, constraints and the order of the mesh together; results are asked for by row number, e.g. 807 in the optimisation script, and a shifted row raises no error", "anchors": ["rose/model/global_system.py::initialise_ndof", "rose/model/global_system.py::recalculate_dof", "rose/pre_process/mesh_utils.py::combine_horizontal_tracks", "rose/pre_process/mesh_utils.py::create_horizontal_track", "run_rose/run_optimisation.py::main"]}
{"id": "C136", "title": "A load given as tables acts as the tables say", "statement": "For a load condition with tables of forces (nodes by time steps) for any of the three directions: at every time step each node gets the force of its row and that step, and none in a direction without a table, whatever steps were asked for before and however often the load was initialised. A table without a row for a node or without a column for the step raises an error. After nodes or time of the load were changed and it was initialised again, it acts by its present settings.", "quantifier": "for all numbers of nodes and steps, all tables, all sequences of initialisations and time steps", "why_tests_cant": "tests look at one table and one pass through the time steps; the tables made at initialisation and the vectors reused from step to step depend on the whole history", "anchors": ["rose/model/boundary_conditions.py::initialize_matrices", "rose/model/boundary_conditions.py::update_force", "rose/model/boundary_conditions.py::initialize"]}
{"id": "C137", "title": "The optimisation script fits stiffness and damping of the soil", "statement": "The optimisation script tries stiffness and damping of the soil only: each trial runs the original model with the two values in the soil part and everything else as it was, whatever was tried before. What is minimised is the difference between the largest displacement of the chosen degree of freedom over the chosen output steps and the observed 0.0008. Every stiffness file has its own fit, which starts at 0.6 times the values of that file and does not depend on the other files. The observation determines the two values.", "quantifier": "for all coupled models with five parts, all running and reading functions, all search methods, all lists of stiffness files, all histories of trials, all start values and difference steps", "why_tests_cant": "a run of the script ends with some pair of values whether or not the observation determines it; that the two residuals agree for every model and every trial is a statement about all runs", "anchors": ["run_rose/run_optimisation.py::main", "rose/optimisation/optimisation.py::residual_function", "rose/optimisation/optimisation.py::least_square"]}
{"id": "C138", "title": "The demonstration scripts calculate all their trains on the track", "statement": "Running a demonstration script calculates each of its six trains and writes a file with its name, each from its own speed and running time, whatever the trains before did as long as none of them failed. Every train stands on the rail at the start and has all its wheels on the rail at all times of the run, so no calculation is rejected because of the position of the train.", "quantifier": "for all calculations of a model (any outcome), all starting coordinates, speeds, running times, time steps and rails, all train types", "why_tests_cant": "the tests never run the scripts; a run takes hours, and what holds for one train, speed and track says nothing about others", "anchors": ["run_rose/demo.py::main", "run_rose/demo_rf.py::main", "run_rose/demo_semi_rigid.py::main", "run_rose/demo_semi_rigid_rf.py::main", "rose/pre_process/default_trains.py::set_train"]}
{"id": "C139", "title": "Tracks on a random field of soil have the soil of the field under every sleeper", "statement": "The scripts with a random field of soil give every sleeper its own spring and damper. Stiffness and damping under a sleeper are the values of the field at the place of that sleeper, around the means of the stretch it lies in, with a variation of a quarter, times the sleeper distance. The soil under one stretch varies independently of that under the next. All values are positive. A field with too few values for the sleepers is rejected.", "quantifier": "for all functions drawn by the generator of random fields, all means, all numbers of stretches and sleepers", "why_tests_cant": "the tests check one call of the generator; which value is used under which sleeper is decided in scripts no test runs, and must hold for every drawn field", "anchors": ["run_rose/demo_rf.py::main", "run_rose/demo_semi_rigid_rf.py::main", "run_rose/demo_rf.py::create_model", "rose/utils/random_field.py::create_rf"]}
{"id": "C140", "title": "A model seen in a mirror gives the results seen in the mirror", "statement": "Left and right do not matter. A model whose mesh and loads are mirrored at a vertical line has the same degrees of freedom, and its matrices and forces are the same up to the sign of horizontal displacements, horizontal forces, rotations and moments; its motion is the mirrored motion. A model that looks the same in the mirror and carries loads that look the same is displaced symmetrically: nodes that are mirror images of each other move vertically alike and turn in opposite ways. A track whose segments are laid in the opposite order and that is loaded at the opposite place deflects in the opposite order.", "quantifier": "for all models with beams, rails, rods and point masses, all meshes, loads, constraints and damping, all places of the mirror, all motions; for tracks: all numbers of segments, sleepers and soils", "why_tests_cant": "the tests check single elements in a few positions; the angle of an element is computed with case distinctions on its direction, and the property must hold for every mesh and every assembly", "anchors": ["rose/model/global_system.py::GlobalSystem", "rose/model/utils.py::calculate_rotation", "rose/model/model_part.py::TimoshenkoBeamElementModelPart"]}
{"id": "C141", "title": "The units of mass and time do not matter", "statement": "A model that is written in other units of mass and time (tonnes for kilograms, milliseconds for seconds), with all its stiffnesses, dampers, masses, densities, end springs, loads and damping frequencies converted, has the same degrees of freedom, and its matrices and forces are the old ones in the new units. The displacements in balance with the loads are the same, and the motion runs through the same displacements at the converted times.", "quantifier": "for all models with beams, rails, rods and point masses, all meshes, loads, constraints and Rayleigh damping, all factors between the units, all motions", "why_tests_cant": "the tests use one set of units; nothing in the code carries units, and absolute tolerances hide in several places", "anchors": ["rose/model/global_system.py::GlobalSystem", "rose/model/model_part.py::TimoshenkoBeamElementModelPart", "rose/model/model_part.py::RodElementModelPart"]}
{"id": "C142", "title": "The track of the demonstration scripts can be calculated and its soil carries the load", "statement": "For any list of segments with at least one whole group of sleepers each and at least two sleepers in all, the demonstration script builds its track: the sleepers of the segments in order, one element of soil of one metre under each. With positive stiffness and nonnegative damping of the soil for each segment, the assembled system has exactly the free directions (three per node of the rail, two at its ends, one per sleeper), one position of rest under any loads and one answer for each equation of the solvers. At rest the soil carries the whole load, each segment with its own stiffness per metre times the distance of sleepers. Values of the soil beyond the last segment are not used; too few of them give an IndexError; a segment without a whole group of sleepers gives an error.", "quantifier": "for all lists of sleepers per segment, all factors for coarser models with rail elements between 1 cm and 1 km, all numbers of rail elements per sleeper, all values of the soil, loads and Rayleigh damping", "why_tests_cant": "the scripts are not tested at all and take hours; the number of segments and the values are free", "anchors": ["run_rose/demo.py::create_model", "run_rose/demo.py::materials", "run_rose/demo.py::geometry"]}
{"id": "C143", "title": "A sudden load moves its point at most twice as far as the same load at rest", "statement": "A model that is at rest and is suddenly loaded with a constant vertical force moves the loaded point in the direction of the force, never back beyond its starting position, and at most twice as far as the force moves it at rest; for several loads the same holds for the work of the loads. The same holds for any change from one constant load to another, from the rest position under the first. Without loads, no direction ever moves further than the energy at the beginning allows: the square of its displacement is at most twice the energy times its displacement under a unit force. Twice is reached by a mass on a spring without damping. All of this holds for every joined track of the scripts.", "quantifier": "for all models with sound materials, all Rayleigh damping, all loads, all continuous motions and all times; for all joined tracks with any number of segments", "why_tests_cant": "the bounds concern all moments of all motions of all models; a run shows one motion at its time steps", "anchors": ["rose/model/global_system.py::initialise", "rose/model/global_system.py::calculate_stage"]}
{"id": "C144", "title": "Where a model lies does not matter", "statement": "A model whose nodes are all moved by the same vector gets the same matrices, forces and numbers of degrees of freedom, and fails with the same error when it fails. A moving load is at the same place of the same element at every step and acts with the same forces on the nodes. The same nodes are merged when they are added to a mesh.", "quantifier": "for all meshes, parts, loads, constraints and damping, all moving loads and all vectors", "why_tests_cant": "the tests use tracks at the origin only; the tolerances of the code are partly relative to the coordinates", "anchors": ["rose/model/global_system.py::initialise", "rose/model/boundary_conditions.py::update_force", "rose/model/utils.py::calculate_point_rotation", "rose/model/utils.py::calculate_rotation", "rose/model/geometry.py::add_unique_nodes_to_mesh", "rose/model/geometry.py::__hash__"]}
{"id": "C145", "title": "Moving a model as one rigid body takes no force", "statement": "Displacing all nodes of a model by the same vector stores no energy in it and needs no force, and so does turning it by a small angle. Hence a model that is not held is in balance only under forces without resultant and moment, and without damping the resultant and the moment of the forces are those of mass times acceleration.", "quantifier": "for all meshes, parts, loads, constraints and damping, all rigid displacements that the constraints allow, all balances and all motions", "why_tests_cant": "a test checks the matrices of single elements; that the rows of an assembled matrix of any size cancel for rigid displacements holds for all models or is not settled", "anchors": ["rose/model/global_system.py::initialise", "rose/model/model_part.py::set_aux_stiffness_matrix", "rose/model/utils.py::rotate_aux_matrix", "rose/model/utils.py::calculate_rotation"]}
{"id": "C146", "title": "The unit of length does not matter", "statement": "A model written in another unit of length (for example millimetres in place of metres, with Young's moduli, densities, areas, second moments of area, forces and moments converted) is initialised as well, keeps the same degrees of freedom, and its matrices and forces are the old ones in the new unit; so the same displacements balance the same loads and the same motions are possible, and rotations come out the same.", "quantifier": "for all meshes, parts, loads, constraints, damping, all positive ratios of the units, all displacements and all motions", "why_tests_cant": "a test fixes one unit; that each formula of the assembly has one dimension throughout, in every entry of matrices of any size, holds for all inputs or is not settled", "anchors": ["rose/model/global_system.py::initialise", "rose/model/model_part.py::set_aux_stiffness_matrix", "rose/model/model_part.py::set_aux_mass_matrix", "rose/model/utils.py::calculate_rotation", "rose/model/track.py::calculate_length_rail"]}
{"id": "C147", "title": "Holding more of a model never makes it softer", "statement": "When one more no-displacement constraint is set, the model is initialised as well, loses exactly the directions that the constraint holds and keeps stiffness, mass, damping and forces of all others. At rest the loads together go no deeper than before, a single load goes no deeper and not against its direction; a model with one answer keeps one answer, no frequency falls below the lowest one, and holding what does not move changes nothing.", "quantifier": "for all meshes, parts, loads, damping, constraints and further constraints, all displacements at rest", "why_tests_cant": "a test compares a few supports of one structure; that no support of any structure makes any load go deeper is a statement about all of them", "anchors": ["rose/model/model_part.py::set_constraint_condition", "rose/model/global_system.py::initialise", "rose/model/global_system.py::trim_all_global_matrices"]}
{"id": "C148", "title": "Cutting a beam in two does not change a model at rest", "statement": "When a level beam of a model is cut at any place by a new node, so that two beams of the same material and section take its place, the model rests under the same loads exactly as before: the old nodes stand where they stood, and the new node stands on the bent beam. Without shear deformation the shape functions give this bent beam, and a load between two nodes that is shared out by them moves all nodes as the same load on a node of its own would.", "quantifier": "for all meshes, other parts, loads, constraints, beams with and without shear deformation, places of the cut, and all displacements at rest", "why_tests_cant": "a test refines one mesh and compares numbers within a tolerance; exactness for every cut of every beam in every structure is a statement about all of them", "anchors": ["rose/model/model_part.py::set_aux_stiffness_matrix", "rose/model/model_part.py::set_z_rot_shape_functions", "rose/model/model_part.py::set_y_shape_functions", "rose/model/global_system.py::initialise"]}
{"id": "C149", "title": "A finer mesh never gives higher frequencies", "statement": "The mass matrix of a level beam holds the energy of motion of the whole beam: mass times squared velocity of each section as the bent beam moves, and with shear deformation the inertia of its rotation, added up over the length. So when a beam is cut in two by a new node, each displacement of the old model is one of the new model with the same displacements at the old nodes and the same stiffness, mass and damping energy, and the lowest frequency never rises.", "quantifier": "for all meshes, other parts, constraints, beams with and without shear deformation, places of the cut, and all displacements", "why_tests_cant": "a test computes frequencies of a few meshes; that no refinement of any beam in any structure raises them is a statement about all of them", "anchors": ["rose/model/model_part.py::set_aux_mass_matrix", "rose/model/model_part.py::set_aux_stiffness_matrix", "rose/model/global_system.py::initialise"]}
{"id": "C150", "title": "More stiffness and less mass never lower the frequencies", "statement": "When beams without end springs get a stiffer or lighter material, springs a larger stiffness, springs and sleepers a smaller mass, when masses are taken away or springs without mass are put in, and no direction moves that was held before, then every bound from below of the frequencies of the old model holds for every free vibration of the new model.", "quantifier": "for all meshes, parts, changes of stiffness and mass, constraints, and all free vibrations", "why_tests_cant": "a test compares frequencies of a few models; that no stiffer or lighter model of any shape swings more slowly is a statement about all of them", "anchors": ["rose/model/model_part.py::set_aux_stiffness_matrix", "rose/model/model_part.py::set_aux_mass_matrix", "rose/model/global_system.py::initialise", "rose/model/global_system.py::trim_all_global_matrices"]}
{"id": "C151", "title": "A moving load between two nodes acts like a load on a node of its own", "statement": "When a moving load with force or moment stands between the nodes of a level beam without shear deformation, the forces and moments it puts on the nodes do the same work in every displacement as the load itself in the displacement of the bent beam. All nodes of the model at rest therefore move exactly as far as if the beam had been cut at the load and the load put on the new node; the mesh need not have a node under the wheel.", "quantifier": "for all models, level beams with rigid ends and no shear deformation, places on the beam, loads with horizontal force and either vertical force or moment, other loads and constraints, all displacements at rest", "why_tests_cant": "a test compares a few places of a load with a closed formula for one beam; that every place on a beam of any model gives the displacements of the finer model is a statement about all of them", "anchors": ["rose/model/boundary_conditions.py::update_force", "rose/model/model_part.py::set_y_shape_functions", "rose/model/model_part.py::set_z_rot_shape_functions", "rose/model/model_part.py::set_normal_shape_functions"]}
{"id": "C152", "title": "Influence lines: a place and a moving load can be exchanged", "statement": "As a moving load travels along level beams without shear deformation, the displacement of a node at rest, for any place of the load between the nodes, is the bent shape of the beams under a load on that node. For two loads at any two places the place of the second moves under the first load as the place of the first moves under the second one. No load moves its own place against its direction, and the square of the mutual work is at most the product of the own ones.", "quantifier": "for all models, constraints, nodes, beams and places of the loads on them, all loads with horizontal force and either vertical force or moment, all displacements at rest", "why_tests_cant": "a test compares a few places on one beam; that exchanging any two places of any model gives the same displacement is a statement about all of them", "anchors": ["rose/model/boundary_conditions.py::update_force", "rose/model/global_system.py::initialise"]}
