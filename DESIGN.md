# Design

Subject: the ROSE finite element code (train/track interaction) at the pinned commit in `/repo`.
The model is written by reading the Python text; the code is never run.

## Shape of the development

* `rocq/theories/Num.v` – a class of number operations. Every numeric model function is generic in
  the number type. The theorems are stated for the instance on the standard library's reals `R`;
  the instance on `Q` makes the same functions computable, and is used in `Tests_*.v` to replay
  expected values of the repository's unit tests with `vm_compute`.
* `Model_*.v` – the model, function by function, each definition citing file and lines. No proofs.
* `Spec_*.v` – small independent vocabulary used in statements (rank of an index, resultant of a
  force system, ...). Never refers to the model.
* `Proofs_*.v` – lemmas.
* `Props_*.v` – only the property theorems (`Cxx_name`), each with a non-trivial instance beside it
  and `Print Assumptions`.

Exceptions of the Python code are modelled as values (`res A`), object identity as natural-number
identities, in-place mutation as explicit state.

## Trusted base

* Coq 8.16.1 kernel (and `vm_compute` for the test examples).
* Axioms printed by `Print Assumptions`. Theorems about real numbers depend on axioms of the standard
  library's classical reals: `ClassicalDedekindReals.sig_forall_dec`,
  `ClassicalDedekindReals.sig_not_dec` and
  `FunctionalExtensionality.functional_extensionality_dep`. Theorems that use powers, logarithms,
  derivatives or case distinctions on reals may also list `Classical_Prop.classic`. Purely discrete
  theorems are closed under the global context. No axioms are added, and no axiom of another library
  is used.
* `Proofs_Field.v` is the only file that imports Coquelicot (derivatives and integrals of shape
  functions). Its theorems list the standard library's axioms only. `coqchk` also lists the opaque
  definitions of `Coq.ssr.ssrunder` because that module is loaded.
* The reading of the Python code, numpy and CPython semantics described in the model comments.
* IEEE doubles are idealised as exact reals. Tolerances that occur in the code (1e-8, 1e-9, 1e-5)
  are kept explicitly. Overflow, NaN and infinity are only modelled where the code handles them.

### Modelled parts of the code

| File in `/repo` | Model | Left out |
|---|---|---|
| `rose/model/geometry.py` | `Model_Geometry.v` | plotting attributes |
| `rose/model/global_system.py` | `Model_System.v`, `Model_Coupled.v` (stages, damping), `Model_Track.v` (assembly, trimming, repeated runs), `Model_Run.v` (running all stages) | progress messages |
| `rose/model/model_part.py`, `track.py`, `soil.py` | `Model_Element.v`, `Model_Validate.v`, `Model_Track.v` | `calculate_strain` placeholders |
| `rose/model/boundary_conditions.py` | `Model_Moving.v`, `Model_Tables.v` (loads given as tables), `Model_Validate.v` | – |
| `rose/model/utils.py` | `Model_System.v`, `Model_Element.v`, `Model_Moving.v` | – |
| `rose/model/train_model.py` | `Model_Train.v`, `Model_TrainMesh.v` (node objects), `Model_TrainSystem.v` (matrices, empty rows), `Model_Run.v` | – |
| `rose/model/train_track_interaction.py` | `Model_Coupled.v`, `Model_CoupledSystem.v` (matrices), `Model_CoupledRun.v` (running), `Model_Initial.v` (initial state), `Model_Run.v` (stages) | – |
| `rose/model/irregularities.py` | `Model_Irregularities.v` | values of the random generator |
| `rose/model/accumulation_model.py` | `Model_Accumulation.v` | writing the pickle file |
| `rose/pre_process/mesh_utils.py` | `Model_Mesh.v`, `Model_Hinge.v` (hinge from its fixity factor) | – |
| `rose/pre_process/default_trains.py` | `Model_DefaultTrains.v`, `Model_TrainDict.v` (description for the dashboard) | – |
| `rose/optimisation/*.py` | `Model_Swarm.v`, `Model_Optimisation.v` | `scipy.optimize.least_squares` |
| `rose/utils/Kalman_Filter.py` | `Model_Kalman.v` | – |
| `rose/post_processing/plot_profile.py` | `Model_Profile.v` | drawing of the figure |
| `run_rose/batch_post_process.py`, `batch_varandas.py` | `Model_Batch.v`, `Model_BatchScripts.v` | contents of files, figures |
| `run_rose/batch_calculation.py`, `run_wolf.py`, `read_wolf.py` | `Model_Demo.v`, `Model_DemoResults.v`, `Model_Segments.v` | contents of files |
| `run_rose/demo.py`, `demo_rf.py` | `Model_Demo.v` (times, speeds, segments), `Model_DemoTrack.v` (track), `Model_DemoMain.v` (loop over the trains), `Model_DemoResults.v` (what is written), `Model_FieldSoil.v` (soil of the random field) | writing of the files |
| `run_rose/demo_semi_rigid.py`, `demo_semi_rigid_rf.py` | the same, with `Model_SemiRigidResults.v` and `Model_Hinge.v` | writing of the files |
| `run_rose/run_optimisation.py` | `Model_Fit.v` | the solver, which is an arbitrary function |
| `analytical_solutions/*.py` except `winkler.py` | `Model_Analytic.v` | root finding of scipy (the roots are parameters), json files |
| `analytical_solutions/winkler.py` | `Model_Winkler.v` | signed zeros, division by zero except at the critical speed, json files, demonstration |
| `rose/utils/Hmax.py`, `wolf_utils.py`, `random_field.py` | `Model_Misc.v` | Welch's estimator, filter design, random field generator |

Oracles (arbitrary functions in the theorems): the time integration and static solvers of the
external package, sparse linear solvers, Welch's estimator, band pass filter, random generators, cost
functions. Not modelled at all: plotting, JSON and pickle files, command line scripts apart from what
the table lists.

## Plan per property

* **C01 Node comparison decides coincidence and merges only on success** – `node_eq` returns the answer together with the mutated left node; spec lists every field of the result.
* **C02 Adding nodes to a mesh keeps one node per rounded coordinate, in first-seen order** – `dict.fromkeys` modelled as a fold with CPython lookup (identity first, then hash and comparison, stored key on the left). Invariant by induction over batches, for every hash function of the rounded coordinates.
* **C03 Nodes that compare equal are stored once** – Expected false: tolerance and rounding disagree. Refutation with two nodes 0.4 nm and 0.6 nm; exact condition under which it holds proved.
* **C04 Renumbering gives every mesh node and element its position as index** – Fold over positions; result characterised by `nth_error`.
* **C05 Elements on the same nodes are stored once** – Same fold with `element_eq` / ordered hash. Reversed element expected to be kept twice: refutation, plus the part that holds.
* **C06 Degrees of freedom are numbered without gaps or collisions** – Numbering function on nat; bijection proof.
* **C07 Removing degrees of freedom keeps matrices and node numbering consistent** – `recalculate_dof` (counter over nodes) and `delete_rows_cols` (mask) modelled separately; both proved equal to rank among survivors.
* **C08 The trimmed system contains exactly the free, massive, stiff degrees of freedom** – Index sets computed as in the code, membership characterised.
* **C09 Nodal results are the solver columns of that node's degrees of freedom** – Mask scatter / number gather on lists; all sizes.
* **C10 Nodal forces are reported as zero in inactive directions** – `np.empty` is an arbitrary memory argument; refuted for inactive columns, proved for active.
* **C11 Reshaping an element matrix to all directions only inserts zero rows and columns** – Nested loop of the code as folds; entry characterisation by rank among active directions.
* **C12 Assembly is superposition and does not depend on element order** – COO summation as a fold; entry = old + sum; permutation invariance, symmetry, PSD by quadratic forms.
* **C13 Deleting rows and columns keeps exactly the other rows and columns in order** – Boolean mask model; submatrix characterisation.
* **C14 Rotating a point preserves length and is undone by the opposite angle** – Real trigonometry.
* **C15 The element angle points from the first node to the second** – Both angle functions on R with atan; direction theorem; refutation for nearly vertical elements with slightly negative dx.
* **C16 An element resists only deformation along and across its own axis** – R A R^T product on 6x6 matrices; refuted at 45 degrees; proved for axis-parallel rods and the general closed form.
* **C17 The beam stiffness matrix is symmetric, positive semidefinite and free of rigid-body forces** – Entry-wise assignment model of the 6x6 matrix; identities by `field`, definiteness by sum of squares.
* **C18 Semi-rigid end springs do not create forces under rigid motion** – As C17 with spring factors; rigid rotation refuted when the shear factor is positive; proved for zero shear factor and for fixed ends.
* **C19 The beam mass matrix has the exact mass properties of the element** – As C17; energies of rigid motions by `field`; semidefiniteness by explicit squares.
* **C20 Beam shape functions interpolate nodes and reproduce rigid motion** – Shape functions as real functions; derivative by the standard library's `derivable_pt_lim`.
* **C21 Shape functions do not depend on the unit of length** – Scale law; refuted for a positive shear factor, proved for Euler beams and unit length.
* **C22 Internal forces between nodes are in equilibrium with the nodal forces** – Interior force formula; refuted for pure bending; proved for ends and antisymmetric case with exact error term.
* **C23 The hinge stiffness realises the requested fixity factor** – Round trip by `field`; the missing raise refutes the rejection clause.
* **C24 A rail is accepted only if all its elements have the same length** – List model with isclose.
* **C25 Rod matrices describe a massive two-node spring-damper** – 2x2 matrices.
* **C26 Validation fails exactly when the current model is invalid** – Process state = set of cached logger levels; exact characterisation, and refutation of history independence.
* **C27 A load is ramped up linearly and then held** – linspace/slice assignment on lists.
* **C28 Nodal forces of a moving load are statically equivalent to the load** – Update with the shared work arrays modelled as references; equilibrium proved when not both shear and moment act, refuted otherwise.
* **C29 The contact element contains the moving load at every time step** – Index recurrence over time; invariant under a speed bound, refutations without it.
* **C30 A load outside the track acts nowhere and a load on the track acts in full** – List maps.
* **C31 The model part used for the shape functions owns the contact element** – Recurrence over parts; invariant and refutation.
* **C32 The force vector of a time step depends only on that time step** – State machine over arbitrary call histories.
* **C33 The global force vector is the sum of all loads on each degree of freedom** – numpy fancy `+=` (last write wins); sum theorem for duplicate-free lists; refutation with duplicates.
* **C34 Travelled distance is the accumulated speed** – cumsum lists, both implementations.
* **C35 Train degrees of freedom are numbered injectively, shared bogies once** – Identity-based store of bogies; numbering fold.
* **C36 Train stiffness, damping and mass are those of a spring-connected multi-body system** – Fold of entry updates; energy identity; refutation for unbalanced suspension (SLT end cart).
* **C37 The weight of the train is carried completely by its wheels** – Fold over carts with a store for shared bogies.
* **C38 Initialising the same train again gives the same loads and irregularities** – Same state machine run twice; refuted.
* **C39 The initial train displacement is in static equilibrium with the imposed wheel displacement** – Elimination of imposed dofs; refuted for non-zero displacements, proved for zero.
* **C40 Rail irregularity is a function of the position on the track only** – RNG as stream determined by the seed; pointwise map.
* **C41 Contact forces are transferred completely to the track** – In-place assignment; conservation for disjoint contact dofs, refutation for shared nodes.
* **C42 The wheel-rail contact never pulls and grows with penetration** – Real power with explicit NaN branch.
* **C43 At rest the contact force equals the static wheel load** – Real power inverse.
* **C44 Coupling keeps track and train matrices and numbering apart** – Block slices.
* **C45 The local position of a wheel is its distance from the first node of its contact element** – cumulative distance lists; refuted for tracks not starting at the origin.
* **C46 A train outside the track is rejected before calculation** – Boolean test; iff.
* **C47 Rail nodes of a hinged track are listed once for the wheel loads** – Node list concatenation; refuted for hinged rails.
* **C48 The force used in a non-linear iteration depends only on the time step and the current displacement** – State machine.
* **C49 Every calculation stage has a constant time step** – np.unique(return_index) model; proved for step sizes in contiguous blocks, refuted for A,B,A.
* **C50 Rayleigh damping gives the requested damping ratio at both frequencies** – Real algebra.
* **C51 A generated horizontal track has the requested geometry and connectivity** – List comprehension model.
* **C52 Joining tracks continues rails and sleepers at the same spacing** – Coordinates of joined tracks; sleeper part refuted for r>1.
* **C53 A semi-rigid hinge splits the rail without losing or duplicating elements** – List surgery model; interior proved, ends refuted.
* **C54 Carts of a generated passenger train are coupled consistently** – Position functions of the generators.
* **C55 Vehicles of a generated cargo train do not overlap** – Same; refuted for two locomotives, proved for one.
* **C56 The bottom boundary fixes exactly the lowest nodes** – argmin filter.
* **C57 A wheel rolling over a rail defect touches the profile and never penetrates it** – Candidates and validity masks; extremum proof with concavity done by algebra.
* **C58 A wheel flat occurs once per wheel revolution** – ceil model; refutations for the last sample and for trajectories without revolution.
* **C59 Accumulated settlement never decreases** – Sums of non-negative increments.
* **C60 Each train type contributes exactly its number of load cycles** – Cycle counting; refuted.
* **C61 The reported settlement at the end does not depend on the reporting interval** – Index set of reported cycles.
* **C62 Continuing a settlement calculation appends to the earlier results** – State machine over continuation.
* **C63 Traffic with inconsistent node counts is rejected** – Set of lengths.
* **C64 Particle swarm positions stay within bounds and the best error is the minimum** – State machine with arbitrary random draws.
* **C65 A particle remembers its own best position** – Heap model of the position list; refuted.
* **C66 The residual depends only on the tried parameter values** – Parameter write model.
* **C67 The Kalman update is a variance-reducing convex combination** – 2x2 matrices with NaN as option.
* **C68 The Kalman gain is optimal for dependent measurements** – Refuted.
* **C69 The vibration measure leaves the given signal unchanged and uses disjoint frequency bands** – Band table; in-place multiplication.
* **C70 Log-normal random fields have the requested mean and variance** – exp/ln identities.
* **C71 Soil layering for the dynamic stiffness has consistent thicknesses** – List model.
* **C72 The reported interaction force of a wheel is minus its contact force** – Log of contact forces against the force vector.
* **C73 The contact element of a wheel contains the wheel** – Search of the element over the cumulative distances; refuted for a rail that does not start at x = 0.
* **C74 Wheels do not remove other loads from the track** – Same assignment as C41; refuted for loads under a wheel.
* **C75 The suspension of a generated train is a passive support** – Energy of C36 evaluated for the generated trains; refuted for SLT.
* **C76, C77 Settlement laws** – Closed form of the accumulation loops of both models for one train type.
* **C78 Soil classes** – Suffix test on names.
* **C79 Particle velocity** – Velocity update with the aliasing of C65.
* **C80 What the residual compares** – Selection, stacking and broadcasting; refutations for further names, requests and single indices.
* **C81 Running vibration level** – Exponential average as a fold; window as a slice.
* **C82 Switching directions** – Setters as record updates.
* **C83 Element forces** – Rotation held by the part object; refuted for parts with several directions.
* **C84 Initialising again** – Whole-system state machine: flags, numbering, matrices, trimming.
* **C85 Energy of the global matrices** – Quadratic form of the assembled matrix as a sum over elements.
* **C86 Mass** – Rigid motion in the quadratic form of C85.
* **C87 Generated tracks are determinate** – Kernel of the global stiffness of a generated track is trivial.
* **C88 Data of generated trains** – Compare every cart, bogie and wheel with a sheet per train type; sum the masses.
* **C89 Running a calculation** – Induction over the stages: rows before a stage stay, rows of a stage are solver steps; the last stage assigns the results.
* **C90 Initial state of the coupled system** – Compose the initial displacements, the block matrices and the contact forces; compare both sides of the equilibrium row by row.
* **C91 Profile along the track** – Weighted sums over lists; nearest element by the minimum of distances; distances by induction over the segments.
* **C92 Collecting a batch** – Invariant over the listed files: what is held is the last uninterrupted run of a segment; equals all its files if the listing is grouped.
* **C93 File for the map** – Rows of the zip of two dictionaries; sound always, complete if both have the same order.
* **C94 Names of files** – Split inverts join; last matching part of a fold.
* **C95 Dynamic stiffness** – Maximum of absolute values of a list.
* **C96 Static reference** – Functions without load are cubic (mean value theorem); the boundary and transition conditions have one solution.
* **C97 Chain of beam elements** – Virtual work: the assembled system balances the forces iff the sum of the bilinear forms of the elements equals the work of the forces for every displacement; the exact field satisfies this by a telescoping sum; uniqueness by positive energy.
* **C98, C99, C100 Dynamic references** – Derivatives of finite sums of products of a sine shape and an amplitude in time; ordinary differential equation per mode.
* **C101 Clamped beam** – Shapes from trigonometric and hyperbolic functions; end conditions from the frequency equation; the tip of a shape never vanishes.
* **C102 Rod** – Derivatives of finite sums; values of cosine at odd multiples of a quarter turn.
* **C103 Beam with hinge** – The clamped beam has one solution; lever rule for the right part.
* **C104 Vehicle** – Two by two system solved by its inverse; induction over the times.
* **C105, C106, C107 Moving force on two foundations** – Sums of complex exponentials: each term obeys the equation of the beam; the coefficients solve a Vandermonde system at the change of stiffness; the signs of the real parts of the principal roots give the decay. The second travelling wave is the conjugate of the first.
* **C108, C109 Motions** – A motion is a family of displacements, velocities and accelerations in time that balances the matrices of `initialise_system`; that such motions are what the solver approximates is outside the model. Energy by the symmetry and semi-definiteness of C85, uniqueness by the definiteness of C87.
* **C110 Renumbering** – Quadratic forms of the two systems agree node by node; polarisation gives the entries.
* **C111 Turned elements** – The angle of a turned element differs by half a circle; the element matrices do not change when the ends are exchanged and the components along and across change sign. The rest is as for C110.
* **C112 Damping of the coupled system** – Products with the combined matrices split into those of track and train; the Rayleigh terms act on both blocks.
* **C113 Energy of a train on a track** – The contact force is the derivative of a contact energy, and the computed track forces do the power of the wheels; summing with C108's power balance.
* **C114 Demonstration scripts** – Only the parts of the scripts that compute times, speeds and segments are modelled, not the models they build.
* **C115 Hinges** – Least values of quadratic energies; the joint of two beams by exchanging the order in which the rotations are minimised.
* **C116 Nodes of a train** – Node objects are entries of a store, `dict.fromkeys` a search that may write to the compared node. The proof follows the order in which the parts are visited.
* **C117 Equations of a train** – `TrainModel.initialise` with numbers read from node objects, matrices of size `total_n_dof` and the removal of empty rows, and the shift of the numbers behind a track. `C117_equations` and `C117_results` hold for parts that are apart; for bogies at the same place the equations are mixed up (`C117_coincident_refuted`). Not modelled here: contact dofs, irregularities and the solver.
* **C118 Coupled run** – The stages of the coupled model are those of C89 on the nodes of track and train behind each other; forces by unfolding the six displacements of an element.
* **C119 The soil carries the load** – `vertical` adds the vertical components of a vector over the nodes, `soil_sum` the spring forces of the soil, `momentum` the vertical momentum. `C119_static` for equilibria under load conditions, `C119_momentum` for all motions of the assembled system (stated with `motion` of C108), `C119_axis` shows that the mean velocity used for a rail element is that of its shape functions, `C119_scripts` and `C119_total` show that the track of the scripts meets the hypotheses. Loads that list a node twice are excluded (C33 is refuted for them).
* **C120 The script for the settlement of a batch writes a result for every scenario** – refuted: the script calls `read_traffic` on a `Varandas` object, which has no such method, and the bare `except` swallows the error. `C120_nothing`: no run writes a file; `C120_written_refuted`: and every run on a complete directory ends without an error. For an object with the methods the script asks for, `C120_scenarios_partial` gives the files written when the scenarios are listed in the same order for the three trains; `C120_order_refuted` shows forces of different scenarios put together otherwise. `C120_stem`, `C120_distinct`, `C120_overwritten_refuted`, `C120_read_back`: the names.
* **C121 Collecting the results of calculations keeps every scenario and writes it for the map** – `C121_held` for any order, `C121_weighted_partial` for grouped files without repeated scenarios, `C121_order_refuted`; `C121_map` when the four values are there, `C121_map_refuted`: two of the four are provided by nothing in the script, so writing raises as soon as there is a coordinate.
* **C122 The files that the scripts write hold the histories of the run** – `C122_demo`, `C122_batch`: the rows; `C122_histories`, `C122_soil`, `C122_generated`: what they are in terms of the states of the run; `C122_numbers`: the soil part of each row; `C122_ends`: writing ends for results of a run. Refuted: `C122_pads_refuted` (the force of a rail pad is axial, component 0, but component 1 is written: always zero) and `C122_same_row_refuted` (displacements of the soil have two rows per element, forces one, but the post processing takes the row of the same number from both; `C122_stiffness` gives the rows that would be right).
* **C123 The written soil matrices are exactly the soil in the written track matrices** – `C123_soil`: diagonal, and the energy of the springs; `C123_rest`: the written matrices without them are those of the other parts, with Rayleigh damping up to the stiffness-proportional share of the soil; `C123_independent`: entry by entry the same for all soils; `C123_ends`, `C123_needs`: when writing ends; `C123_generated`: for the track of the scripts. The soil elements are vertical rods from the sleeper down to a node without vertical number (what the mesh generator and the bottom boundary make), without mass.
* **C124 The soil carries the train** – `C124_train`: inside the train the forces of springs and dampers on carts, bogies and wheels add up to zero, the mass matrix gives the momentum, the force vector the weight; `C124_contacts`: the forces of the contact evaluation on wheels and rails add up to the other loads and the weight; `C124_momentum`: for every motion under the computed forces (`driven`), the derivative of the momentum of track and train is load minus weight minus soil springs minus soil dampers minus the Rayleigh terms of the track and of the coupled model, the contacts being any function of time; `C124_rest`: in equilibrium the soil carries the weight; `C124_start`: in the initial state the soil carries the wheel loads (also of wheels on a common element); `C124_loads`: which add up to the weight. Refuted: `C124_uneven_refuted` (distribution factors as those of the end carts of the default trains: a rotation of a cart makes a net vertical force), `C124_shared_refuted` (two wheels on one element: one of the two forces on the rail is lost). The specification is Spec_Whole.v; the track is the generated one of C119, the train any train of C117 whose parts keep their vertical direction.
* **C125 The soil under joined and hinged tracks carries the loads** – `Spec_Structure` says what is level, upright and on the ground and sums the forces of springs that end on the ground; `C125_static` and `C125_momentum` hold for any structure of level beams (with any end springs), upright springs and point masses. `C125_joined`, `C125_joined_momentum`, `C125_hinged` and `C125_hinged_momentum` are the tracks of the scripts: `joins` creates and combines the segments with the modelled functions, `script_constraints` computes the constraints with the modelled ones. `C125_scripts` shows that these constraints (and values above the tolerance of the trimming) give what the balance asks for; `C125_total` puts all of it together for the tracks without hinge.
* **C126 Joined tracks are well posed** – `C126_definite` from the constraints that matter (bottom held vertically, rail held along x at one node), `C126_well_posed` for the constraints of the scripts. The argument goes along the rail: no energy means rigid motion of the whole rail, two sleepers at different places stop it.
* **C127 The ground carries the whole train on any structure** – `Spec_Ride` collects what is asked of the train (`set_up`), the wheels (`wheels_on`) and the structure (`structure`). `C127_momentum`, `C127_rest` and `C127_start` are C124 with the structures of C125 in place of a generated track; `C127_joined_momentum`, `C127_joined_rest` and `C127_joined_start` are the tracks of the scripts, with or without hinge (`joined_or_hinged`). The refuted parts of C124 (uneven springs, wheels that share a degree of freedom) are excluded by `even_springs` and `wo_apart`; in the initial state wheels may share degrees of freedom.
* **C128 Tracks with a hinge in the rail stand and are well posed** – `Proofs_Hinged` finds the energy of the track with the hinge: the two elements at the hinge have one end of any fixity. `C128_stands` gives what C125_hinged and C127 ask for (`joined_stands`), `C128_definite` and `C128_well_posed` are C126 for tracks with a hinge. Without stiffness in the hinge the rotation of its node has no stiffness and is removed by the code; the two pieces must then rest on the sleepers (`rests_apart`, Spec_Hinged). `C128_loose_end` shows that this is needed: with all sleepers at one side of the hinge and no shear deformation, a displacement without energy exists (`C128_loose_end_case`: two sleepers, hinge at the last one).
* **C129 The file of a track with a hinge shows the rail as if it were in one piece** – `Props_SemiRigidResults.v`: `C129_as_whole` (the file equals that of the track with the rail in one piece), `C129_rail` (rows of rail nodes and elements of generated tracks), `C129_first_refuted`; cases `C129_case`, `C129_first_case`.
* **C130 A batch writes for every stiffness file the result of its own soil** – `Props_Segments.v`: `C130_names` (which files are read and under which name), `C130_each`, `C130_right` (after any end), `C130_others`, `C130_order`, `C130_scenarios` (names and tables of soil data), `C130_underscore_refuted`; cases `C130_case`, `C130_scenarios_case`. The copy of the model that `main` takes before each calculation (`copy.deepcopy`) is modelled by values, so that a copy shares nothing with the model.
* **C131 A static calculation has one answer, and a stiffer track never goes deeper under its load** – `Props_Stiffer.v`: `C131_one_answer`, `C131_stiffer` (any two models on the same nodes), `C131_joined` (tracks of the scripts), `C131_under_load` (one load), `C131_trim_refuted`; case `C131_case`.
* **C132 Static deflections add up and are mutual** – `Props_Stiffer.v`: `C132_reciprocal`, `C132_superposed` (any model), `C132_joined` (wheels on tracks of the scripts); case `C132_case`.
* **C133 How a track is cut into segments makes no difference** – `C133_same_places`, `C133_same_model`, `C133_same_answers` for one rail element per sleeper, as in all demo scripts; `C133_one_by_one` gives the places of the sleepers for segments of one sleeper. Refuted for two or more rail elements per sleeper (`C133_cut_refuted`); case `C133_case`.
* **C134 The dictionary of a train describes the whole train** – `C134_describes` for all trains of vehicles of one kind, `C134_offered` for the trains of the package but the Sprinter SLT, `C134_returns` for the way back; refuted for shared bogies (`C134_shared_refuted`), cargo trains (`C134_cargo_refuted`) and trains without carts (`C134_empty_refuted`); cases `C134_case`, `C134_optimisation_case`.
* **C135 Which directions of a track are calculated, how many there are and in which order** – `C135_directions` (exactly the free directions), `C135_count` (how many), `C135_order` (mesh order, then x, y, rotation), `C135_columns` (explicit numbers for one segment), `C135_optimisation` (row 807 of the optimisation script is its last wheel); case `C135_case`.
* **C136 A load given as tables acts as the tables say** – `C136_given` (any history), `C136_initial` (no forces before the first step), `C136_small` (too small tables raise), `C136_fewer` (fewer nodes: the first rows); refuted for more time steps after a first initialisation (`C136_longer_refuted`); case `C136_case`.
* **C137 The optimisation script fits stiffness and damping of the soil** – `C137_tried` (what each trial runs), `C137_compared` (what is minimised), `C137_files` (one fit per file, any search method); refuted: the observation determines the values (`C137_singular_refuted`: the normal equations have determinant 0 at every point and for all difference steps; `C137_ambiguous_refuted`: a model with two exact fits); case `C137_case`.
* **C138 The demonstration scripts calculate all their trains on the track** – `C138_names` (the six trains and their files), `C138_files` (loop over any cases, any outcome), `C138_on_track` (trains of one cart, any start, speed, running time and rail), `C138_scripts` (the trains of the scripts but one); refuted: all six are calculated (`C138_stops_refuted`), also not with two carts (`C138_two_carts_refuted`); case `C138_case`.
* **C139 Tracks on a random field of soil have the soil of the field under every sleeper** – `C139_values` (any drawn function, any stretches: which value goes to which sleeper), `C139_too_few`, `C139_track` (the track of the scripts: one soil part per sleeper, at 0.6 m), `C139_sign` (positive exactly where the drawn function is above -4); refuted: the field is read at the place of the sleeper (`C139_place_refuted`), the stretches are independent (`C139_repeats_refuted`), all values are positive (`C139_negative_refuted`); case `C139_case`. Assumed of the generator of random fields: with a fixed seed it scales one function of the place by the standard deviation and adds the mean (`draws`).
* **C140 A model seen in a mirror gives the results seen in the mirror** – `C140_same_system`, `C140_same_motion` (any model, mirror at any place), `C140_symmetric` (symmetric model and loads, unique balance: symmetric displacements), `C140_image` (the image of a motion of a symmetric model is a motion of it); `C140_opposite`, `C140_track` (tracks with one rail element per sleeper whose sleepers lie on the same soil in the opposite order answer in opposite ways); refuted for beams that lean by less than 1e-8 (`C140_leaning_refuted`) and for tracks with two or more rail elements per sleeper (`C140_track_refuted`); cases `C140_symmetric_case`, `C140_track_case`.
* **C141 The units of mass and time do not matter** – `C141_same_system`, `C141_same_balance`, `C141_same_motion`, for models in which no stiffness or mass of a direction crosses 1e-8 in the change of units (`well_scaled`); without this it is refuted for every change of units (`C141_same_system_refuted`); case `C141_case`.
* **C142 The track of the demonstration scripts can be calculated and its soil carries the load** – `C142_built`, `C142_answers`, `C142_carries`, `C142_extra`, `C142_too_few`, `C142_empty_segment`; the script as it is: `C142_demo` (7001 degrees of freedom); case `C142_case`. Modelled in `Model_DemoTrack.v` (demo.py 24-52 and 77-148).
* **C143 A sudden load moves its point at most twice as far as the same load at rest** – `C143_free`, `C143_change`, `C143_sudden`, `C143_point`, `C143_joined` (joined tracks of the scripts), `C143_reached` (the factor 2 cannot be smaller); case `C143_case`. Motions are continuous solutions of the assembled equations (the time integration is outside of the repository).
* **C144 Where a model lies does not matter** – `C144_system` (an equation, errors included), `C144_moving`, `C144_forces` (unless the ends of an element agree in nine digits), `C144_mesh` (nodes at the same place or more than 1e-9 apart); the rest is refuted by `C144_far_refuted` and `C144_merge_refuted`; case `C144_case`.
* **C145 Moving a model as one rigid body takes no force** – `C145_no_energy` (turning: level beams and rails, upright or level rods), `C145_displaced` (displacing: elements in any position), `C145_no_force` (the assembled matrices), `C145_resultant` (balance and motion); turning upright beams is refuted by `C145_upright_refuted`; case `C145_case`.
* **C146 The unit of length does not matter** – `C146_same_system` (matrices, forces and degrees of freedom), `C146_same_balance`, `C146_same_motion`; hypotheses: values that the code compares with 1e-8 are on the same side of it in both units, rails are evenly spaced; without the first the claim is refuted for every other unit by `C146_same_system_refuted`; case `C146_case`.
* **C147 Holding more of a model never makes it softer** – `C147_loses` (directions and entries), `C147_no_slower` (bounds of the energies, single answer), `C147_no_softer` (loads at rest), `C147_unmoved`; hypothesis `lets_nothing_go`: the new constraint holds what its nodes cannot do already; without it refuted by `C147_released_refuted`; case `C147_case`.
* **C148 Cutting a beam in two does not change a model at rest** – `C148_joined_again` and `C148_cut` (rest with two pieces and with one), `C148_shapes` (shape functions are the bent beam, without shear deformation), `C148_load_between` (a load between the nodes); with shear deformation the shape functions are not the bent beam unless the length is 1 (`C148_shapes_refuted`); cases `C148_case`, `C148_load_case`.
* **C149 A finer mesh never gives higher frequencies** – `C149_kinetic` (mass matrix as energy of motion added up over the length), `C149_carried` (every displacement of the old model is one of the new model with the same energies), `C149_no_higher` (bounds of frequencies); case `C149_case`.
* **C150 More stiffness and less mass never lower the frequencies** – `C150_bound` (bounds of the energies and every free vibration `swings`); hypothesis: no direction moves in the second model that is held in the first; without it refuted by `C150_trim_refuted`; case `C150_case`. Beams with end springs are left out.
* **C151 A moving load between two nodes acts like a load on a node of its own** – `C151_stands` (the load is on one of the beams of its track at every step), `C151_work` (work of the nodal forces), `C151_own_node` (rest of the whole model); force vectors from `moving_update`; with both a vertical force and a moment see C28, with shear deformation see C148; cases `C151_case` from `moving_initialize` on and `C151_stands_case`.
* **C152 Influence lines: a place and a moving load can be exchanged** – `C152_influence` (node and place), `C152_places` (two places, sign and bound); from C132 and C151; case `C152_case`.
* **C153 onwards** – see `properties.jsonl`.

## Findings

Statements that the code does not satisfy. Each has a `…_refuted` theorem with a witness (or for all
inputs of a class), and the exact condition under which the claim holds is proved beside it.

* **C03** – false in general: comparison tolerance and hash rounding disagree (nodes 0.4e-9 and 0.6e-9); proved when coincident nodes round to the same position
* **C05** – elements with the nodes in the same order are stored once; a reversed element is stored twice (refuted)
* **C08** – Proved for all constraint lists with 'last constraint wins'; the English claim holds when no node is in two constraints; refuted for a node clamped by one constraint and released by a later one.
* **C10** – active directions proved; inactive directions report uninitialised memory (np.empty)
* **C15** – Proved for the single-point version and for the list version unless the second point lies between 0 and 1e-8 to the left of the first; in that range the list version returns the opposite direction (refuted with a witness).
* **C16** – Holds for horizontal and vertical rods. For inclined rods the code resists along the mirrored direction; refuted with a rod at 45 degrees.
* **C18** – Everything except the rigid rotation for springs combined with shear deformation, which stores energy (refuted).
* **C21** – Holds for the displacement functions, and without shear deformation for all. With shear deformation the shear term of the rotation functions lacks a factor length (refuted).
* **C22** – Normal force constant; shear force right at the ends; exact formula for the moment without shear deformation. Shear and moment between the nodes refuted for pure bending.
* **C23** – All but the rejection of factors outside [0, 1]: the exception is constructed but not raised (refuted).
* **C26** – Exact when no error was logged before in the process; independence of earlier models refuted (logging cache).
* **C28** – Proved for loads without moment or without transverse force, on one element and end to end for a moving load. With both a transverse force and a moment the claim is false: shared work arrays lose the force and double the moment.
* **C29** – Proved for loads that start on the track before its last node, run forward and do not pass an element in one step. False for faster loads, backward motion and a start at the last node.
* **C31** – Proved when the load starts on the first or second part; false when it starts on a later part.
* **C33** – Refuted when a condition lists a node twice (fancy += loses one contribution).
* **C36** – Refuted for unbalanced suspensions (distribution factors or distances whose weighted sum is not zero, as in the end carts of the default SLT train): the vertical-pitch coupling term is missing. C36_energy gives the exact energy of every train, the partial theorems the claim for balanced suspensions.
* **C38** – Refuted: loads and generated irregularities accumulate. C38_growth gives the exact loads after n initialisations.
* **C39** – Refuted: the force of the imposed displacements has the wrong sign. The exact residual is proved; equilibrium holds when the wheels are at rest.
* **C41** – Exact force vector for all wheels. Full transfer when no two wheels share a track degree of freedom. With sharing the claim is false: the last wheel overwrites the others (witness given).
* **C42** – Exponent 3/2 and all non-integer exponents in full. For exponent 2 the law pulls at every separation, for exponent 1 it pushes at separation: the part 'any positive exponent never pulls' is refuted.
* **C45** – Holds for rails on the x axis with any origin. For a level rail at another height it is false (witness).
* **C47** – Holds for a rail of one part; false for every rail of two or more parts, since the joint nodes are listed twice.
* **C48** – Full for the entry points used by the solvers (update_non_linear_iteration, update_time_step_rhs). The separate in-place method update_force_vector accumulates (witness).
* **C49** – Refuted when a step size comes back later (A, B, A).
* **C52** – Rail spacing, pads, soil and mesh proved for any number of tracks. The sleeper distance holds for one rail element per sleeper; with more the distance at the joint is 2d - d/r (refuted for every such input).
* **C53** – Proved for every interior node; refuted at both ends of the rail.
* **C55** – Holds for one locomotive (or no wagons) and any number of wagons. Refuted for every train with two or more locomotives and a wagon: wagons are placed behind the first locomotive.
* **C56** – The lowest node of every element is fixed; this is the set of lowest nodes only if every element has exactly one node at the lowest level.
* **C58** – Proved for all samples but the last. Refuted: the last sample is never indented, and a trajectory in which no interior sample completes a revolution raises IndexError.
* **C59** – Proved for the Varandas model over all sequences of continued periods (parameters >= 0). For Li and Selig proved when every type has at least one load per period and the layers have positive strength; a type with less than one load makes the reported settlement decrease (C59_idle_refuted).
* **C60** – The exact number of loads counted for each type is proved (C60_count); it is the number of cycles for types with the largest number of cycles and a period from day 0. The unrestricted claim is false: a type without traffic or without force adds one load with the largest force, and a later start loses cycles.
* **C62** – Lengths, prefix and start from the last settlement are proved for every sequence of continued calculations of the same nodes; continuing with other nodes is accepted and joins the rows of different nodes (C62_other_nodes_refuted), and a Li and Selig calculation cannot be continued with more train types (C62_more_trains_refuted).
* **C63** – C63_iff is the exact condition; besides the stated errors a period that ends before it starts also raises (C63_backwards_refuted), so the claimed iff does not hold as stated.
* **C64** – Best position and error proved for every cost function that never has the value -1 (all non-negative ones). Bounds proved if the start position is within them, and in any case after the first evaluation; a start position outside the bounds is evaluated unchanged (C64_start_refuted), so the unrestricted claim is false.
* **C65** – The claim is false (C65_refuted): the remembered best position is the same list object as the current position, so it always equals the current position (C65_current). The personal best error is right (C65_error).
* **C68** – Refuted for dependent measurements: the code divides element by element instead of solving the system, so the first gain is never optimal and the covariance can become asymmetric with negative variances. The claim holds for independent quantities.
* **C69** – The bands are disjoint and contiguous. The signal is left unchanged only without conversion: by default the caller's array is multiplied by 1000 in place, so a second call gives 1000 times the effective values. Welch's estimator and the band pass filter are arbitrary functions.
* **C73** – Exact placement proved; correct when the rail starts at x = 0, false otherwise (witness).
* **C74** – Loads away from wheels are kept; loads at degrees of freedom under a wheel are dropped in every case.
* **C75** – Holds for all generated trains but the articulated SLT train. For the SLT train of every length both suspension energy and dissipation take negative values (distribution factors unbalanced at the end carts). The weight is carried in all cases.
* **C80** – Proved for the first result name of one request with at least two indices, also with a function of the user's. Further names are ignored, and a second request or a single index makes every evaluation fail.
* **C83** – Proved for parts whose elements all have the same direction. The force is computed with the rotation of the last assembled element of the part, so it is wrong for other directions, and lying and standing rods report opposite signs.
* **C84** – The repeated run without changes is proved in full. The statement about changed settings is refuted: flags set to inactive by a constraint or by trimming stay inactive because clean_model does not restore them. The partial theorem gives the condition under which the second run equals a fresh one.
* **C89** – Every step is taken once, in order, with the mean step size of its stage; this is its own size unless a step size comes back later (times 0, 1, 3, 4 take the last steps with 3/2; refuted). A solver of another type is not rejected: the exception is constructed but not raised, and the nodes report the initialised arrays (refuted).
* **C90** – The track is in equilibrium when no two wheels share a degree of freedom and the track has no other loads; the rail then carries exactly the static wheel loads. The train is in equilibrium only if the rail does not move under the wheels: otherwise its springs are loaded by twice the force of the wheel displacements (sign error of C39; refuted). Two wheels that share a degree of freedom displace the rail with both loads but press on it with one (refuted).

## Seeded edits

`seeded/LOG.jsonl` has one line per edit of the model made in a scratch copy: the definition, the edit,
the claim it breaks and the theorems that no longer prove. Edits that first survived led to the
theorems named in `theorems_tightened`. Edits that survive because they change nothing observable are
logged with a note.
* **C91** – Mean, spread and distance hold. A segment that joins at the start of the track turns the coordinates collected so far round but not their values, so that coordinates carry the value of another segment (refuted). The second coordinate of a segment is taken for its last one: a longer segment that ends at the end of the track is not turned round and the profile jumps (refuted).
* **C92** – Only the files listed last in an unbroken run count: a segment that comes back after another one loses everything collected before (`os.listdir` promises no order; refuted). A scenario listed twice counts twice.
* **C93** – Lines are right, but the two dictionaries are paired by position: the coordinates come in the order of the soil data and the values in the order of the directory. In another order lines are left out without a message, possibly all of them (refuted).
* **C94** – A scenario as the last part of a file name keeps the extension (`scenario 1.json`), which the soil data do not know (refuted).
* **C96** – Holds for a force on the beam. A force beyond the end is accepted and the support is reported to move (refuted).
* **C97** – Proved when the diagonal values of the element matrices exceed 1e-8. Below, `initialise` takes degrees of freedom away. With elements so short that the rotational masses fall below 1e-8 (a rail with 60 kg/m: elements below 2 mm) all rotations are removed and the deflection at the force is too small by the factor 4 j (N - j): refining the mesh makes the beam rigid (refuted). A beam without mass does not move at all (refuted).
* **C98** – Holds for `n - 1` modes: the last of the `n` requested modes is left out, with `n = 1` nothing moves (refuted). The force stands at the middle point of the list; with an odd number of elements that is half an element away from mid-span, with one element it is a support and nothing moves (refuted).
* **C99** – Holds while every mode is damped less than critically. One mode that is not makes every reported number nan; with stiffness damping this happens from some number of modes on (refuted).
* **C101** – The displacement holds. The velocity is computed with `1 + eig * sin` instead of `eig * sin`: the free end of a beam at rest is reported to move (refuted for every beam).
* **C102** – Equation, end conditions and period hold for the partial sums. The initial displacement is that of the remainder of the series (refuted for one and two requested terms; `nb_terms` sums one term less). The number of elements given is the number of points.
* **C104** – The vehicle is always in balance. The beam misses the force of the damper: its balance fails for every vehicle with a damper (refuted). The time step is always larger than the requested one.
* **C105** – Holds below the critical speed. At the critical speed of a first foundation that is not the stiffer one, the check passes and every displacement is nan (refuted).
* **C106** – Equations, decay, slope, moment and shear force hold. In line 181 one denominator has the wrong sign; the deflection then jumps at the change of stiffness whenever the stiffnesses differ (refuted: the jump stays for places however near).
* **C107** – Holds for positions in strictly increasing order. For others the columns are mixed up: `time_low` numbers the negative times from zero, `time_high` looks them up (refuted). For times that are not negative the result depends on the last position, which sets the period of the inverse.
* **C111** – Holds for rods, and for beams and rails whose ends are exactly above each other or more than 1e-8 apart along x. In between (`utils.py` 193-219) the vertical case takes the sign of the difference along y and half a circle is added for the difference along x, so both directions of writing get the same axis; the coupling of displacement and rotation changes sign (refuted).
* **C112** – Blocks, ratio, power and repetition hold. `calculate_rayleigh_damping` runs for the track and again for the coupled model: when both have the option, modes of the track are damped with twice the ratio (refuted). The option also damps motions of the train that no spring resists, by a0 times the mass (refuted).
* **C113** – Holds for continuous motions (the time integration is another matter) when no two wheels share degrees of freedom of the track and the exponent of the contact law is no integer (it is 3/2 in the code). With two wheels on one element the force vector of the track is overwritten, not accumulated (C41), and the power of one wheel is lost: refuted.
* **C114** – The step is the running time divided by one less than the truncated number of steps, so always longer than requested. The train starts one calculation step late. Sleeper numbers that the factor does not divide are rounded, and the track gets shorter or longer.
* **C115** – The stiffness of the hinge is halved for both rail ends, which are in series, so that the joint has a quarter of it and the ends have fixity f/(2−f) instead of f. `length_element` is the sleeper distance also when there are several rail elements between two sleepers, which makes the joint softer again. The semi-rigid demonstration does not add the hinge itself to the model, so its mass is lost.
* **C116** – Parts of one kind that start at the same place: only one of their nodes is kept, and comparing the nodes gives it the numbers of another part (`C116_coincident`). The renewed filling of the mesh, which a comment in the code calls obsolete, is needed for bogies that carts share: before it their nodes are not among those of the train (`C116_before_reset`).
* **C117** – For a train in which two bogies start at the same place, `TrainModel.initialise` raises nothing and the numbers fit the rows, but the number at the node of a bogie is the row of another cart (train_model.py 859-939, global_system.py 221-312): masses, springs and results belong to the wrong parts.
* **C118** – A coupled run with a single time raises (`ValueError`) although nothing has to be calculated: the forces in the elements are calculated from displacements that no stage has assigned.
* **C120** – `run_rose/batch_varandas.py` writes nothing: `Varandas` has neither `read_traffic` nor `dump`, the `AttributeError` is swallowed by `except: pass`. Also `.strip("intercity.pickle")` removes letters from the front of the name (`res_…` becomes `s_…`), and the three lists of files are zipped in the order of the directory.
* **C121** – `write_gis_csv` reads `dyn_stiffness` and `cum_settlement`, which `get_results` and the weighings of the script never set; `get_results` loses the scenarios of a segment whose files are not listed one after the other.
* **C122** – `write_results` (demo.py, batch_calculation.py and copies) writes component 1 of the force of the rail pads; pads are rods and have only component 0, so `vertical_force_rail_pad` is always zero.
* **C122** – `batch_post_process` divides `vertical_force_soil[node_nr]` by `vertical_displacements_soil[node_nr]` with one number for both, though the displacements have two rows for each soil element (sleeper, ground) and the forces one: with an odd number there is no displacement, with an even one displacement and force are those of different sleepers (100: sleeper 50 and element 100).
* **C123** – with Rayleigh damping the written damping without the written soil damping still holds the share of the soil stiffness (`C123_rest`).
* **C124** – total vertical momentum is not conserved by the model when the suspension factors are uneven (the end carts of the default trains) or when two wheels stand on one rail element: the code makes or loses vertical force.
* **C128** – A hinge with fixity zero at or beyond the last sleeper leaves the rest of the rail without support: the stiffness matrix is singular, and the code neither removes these degrees of freedom nor warns (the tolerance on the diagonal does not see mechanisms of several degrees of freedom).
* **C129** – with a hinge at the first rail node the rail is cut in three parts only. `write_results` of demo_semi_rigid.py takes the first four parts as the rail, the fifth as rail pads and the sixth as sleepers, so the rail pads are listed as rail, the sleepers as rail pads, and the part behind the sleepers as sleepers (demo_semi_rigid.py 206-237).
* **C130** – names of segments and scenarios are joined by an underscore without a check. Scenario `2` of segment `A_1` and scenario `1_2` of segment `A` get the same name `A_1_2`; the stiffness file of one replaces that of the other, and a batch then has one result for both (run_wolf.py 57).
* **C131** – directions with a stiffness of at most 1e-8 on the diagonal are taken out of the calculation, i.e. held, instead of being free. A node on a spring of 1e-9 N/m therefore does not move at all, while on a spring of 1 N/m it does (global_system.py 259-312). Below the tolerance the claim fails, above it is proved.
* **C133** – with two or more rail elements per sleeper each cut lengthens the track: the first sleeper of the next segment lies `2d - d/r` behind the last one of the segment before, and a track of one-sleeper segments has all its sleepers at that distance. The scripts with a random field cut the track into one-sleeper segments, but use one rail element per sleeper, where it does no harm.
* **C134** – `train_class_to_dict` reads the first cart, bogie and wheel only. For the Sprinter SLT, whose carts share bogies, the described train has `2 n` bogies instead of `n + 1`; for a cargo train the wagons are described as locomotives; a train without carts raises an IndexError.
* **C135** – `run_rose/run_optimisation.py` line 340 asks for row 807 twice: with its 200 sleepers and one rail element per sleeper this is the last wheel of the train (`C135_optimisation`), with any other number of sleepers it is another direction or none; stiffness and damping of the soil are fitted to one and the same displacement.
* **C136** – `LoadCondition.initialize_matrices` makes a missing force table once and keeps it: after a longer time array was set and the load initialised again, the tables made the first time are too small and the first new step raises an IndexError, even if the user gave a table for all steps. With fewer nodes the first rows are used, whichever nodes were taken away.
* **C137** – the optimisation script gives the same observation and the same degree of freedom twice, so both residuals are always the same number. The second one only meets the demand of the method 'lm' for as many residuals as parameters: one observed number cannot determine stiffness and damping, the Jacobian never has rank 2, and which pair the search ends with depends on the start values.
* **C138** – all four demonstration scripts end with a ValueError at their second train: `set_train` is called with its default of one cart, and the sprinter SLT needs two. Only the file of the double dekker is written; the four trains after the sprinter are never calculated. With `nb_carts=2` the script would end too: started at 20 m, the last wheels of the sprinter stand 4.755 m before the rail, and the train is rejected.
* **C139** – the scripts with a random field read it at `np.linspace(0, n, n) * 0.6`, which spreads n places over n sleeper distances where there are n - 1: the place runs ahead of the sleeper, up to a whole sleeper distance at the end of a stretch. All four fields of demo_rf.py use seed 14 and places that start at 0, so the soil under the second half of the track varies exactly as under the first (same relative deviation under sleeper 500 + j as under sleeper j), and damping varies exactly as stiffness. The fields are normal, not log-normal: stiffness and damping are zero or negative wherever the drawn function is -4 or below.
* **C140** – a beam whose ends are less than 1e-8 m apart along x but not exactly above each other keeps the sense of its axis in the mirror (`calculate_rotation` treats it as upright and then adds half a turn if it leans to the left), so the mirrored model couples horizontal displacement and rotation with the wrong sign. With two or more rail elements per sleeper the rail of a generated track starts above the first sleeper and ends behind the last one, so that not even a track of one segment is symmetric.
* **C141** – `trim_all_global_matrices` leaves out every direction whose mass or stiffness is at most 1e-8 in whatever unit the user writes (`numpy.isclose(..., 0)` with its absolute tolerance). For every change of units there is a rod with positive stiffness and mass that moves in one system of units and silently stands still in the other.
* **C142** – In demo.py itself (two rail elements per sleeper) the first sleeper of the second segment lies 0.9 m behind the last of the first one, not 0.6 m (`C142_demo`, a consequence of C52): the transition zone that the script is about has one wider gap exactly at the transition.
* **C144** – `calculate_point_rotation` (utils.py 164-190) compares x coordinates with `math.isclose`, whose tolerance is a 1e-9th of the coordinates, while `calculate_rotation` compares their difference with zero. A sloping element far from the origin is therefore turned by a right angle for the moving load but not for its stiffness (`C144_far_refuted`). Whether two nodes 4e-10 apart are merged depends on where they lie (`C144_merge_refuted`).
* **C145** – An upright beam resists being turned as a rigid body: `rotate_aux_matrix` (utils.py 276-296) applies the rotation in the wrong order, so the coupling between sideways displacement and rotation has the wrong sign. Frames with upright beams get a wrong stiffness (`C145_upright_refuted`).
* **C146** – Trimming compares masses and stiffnesses of rotations with the absolute value 1e-8 (global_system.py, `trim_all_global_matrices`). For every change of the unit of length there is a beam whose ends rotate in one unit and are fixed in the other (`C146_same_system_refuted`).
* **C147** – A constraint replaces the flags of its nodes (model_part.py 957-965), so a second constraint on a node takes back what the first one held: a post whose foot is held, and then held sideways by a further constraint, carries no load any more (`C147_released_refuted`).
* **C148** – With shear deformation the vertical shape functions of rotations lack a factor length (see C21), so a load between the nodes of such a beam is not shared out as the stiffness matrix asks (`C148_shapes_refuted`).
* **C150** – Directions with a stiffness below 1e-8 are left out (global_system.py 296-306), so a very soft spring gives a model without frequencies, and a stiffer one brings a low frequency back (`C150_trim_refuted`).
