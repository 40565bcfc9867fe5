# Formal model of thunder_dynamics in Coq 8.16

Source modelled: `/repo/src/thunder` (cited below without the prefix). The model lives in
`rocq/theories/Model`, the small independent specification in `rocq/theories/Spec`, the proofs in
`rocq/theories/Proofs`, and the property theorems (nothing but statements closed by `exact`,
`Print Assumptions` and non-vacuity examples) in `rocq/theories/Props`.

## 1. What is modelled and how

| layer | model | code |
|---|---|---|
| symbolic scalars | `expr` AST (constants, symbols, + - * / neg sin cos sqrt pow), evaluation in R, symbolic derivative | CasADi `SXElem` operations used by the code |
| symbolic matrices | `sx` = rows, columns, poison flag, elements; assignment, slices, products, jacobian, jtimes, reshape | CasADi `SX` operations used by the code |
| kinematics | `ZIS`, `R_x/y/z`, `DHTemplate`, `get_transform`, `compute_chain`, `compute_jacobians`, `compute_kin_adv` | `src/kinematics.cpp` |
| dynamics | `createInertialParameters`, `dq_select`, `stdCmatrix(_classic)`, `DHJacCM`, `compute_MCG`, `compute_Dl`, `compute_elastic`, `compute_dyn_derivatives` | `src/dynamics.cpp` |
| regressors | `createQ/E`, `compute_Yr`, `compute_reg_Dl/elastic/J` | `src/regressors.cpp` |
| robot object | record with the maps `model, args, symb, fun_args, casadi_fun`; parse, setters, getters, load/save, selectivity | `src/robot.cpp` |
| YAML | tree of typed nodes with yaml-cpp's lookup/conversion outcomes | `yaml-cpp` as used |
| generated class | record of stored vectors; setters, conversions, load/save | `thunder_robot_template/thunder_robot.cpp` |
| text generation | `replace_all`, getter text, return types | `src/utils.cpp` |
| link properties | inertia transform / merge / rpy matrices | `src/utils.cpp`, `src/FrameOffset.cpp` |
| frame class | constructors, setters, getters, `hat` | `src/FrameOffset.cpp` |
| parameter file tools | `genInertial_files`; the URDF converter | `src/genYaml.cpp`; `/repo/src/genYAML` |
| command line | robot name extraction | `thunder_main.cpp` |

Outcomes are explicit: `Ok`, `Throw` (C++ exception), `UB` (out-of-bounds access or use of an
indeterminate value).

### Idealisations
* `double` is idealised as the real numbers of Coq's standard library (no rounding, NaN, infinities). C82 bounds the
  rounding error of the published functions, in the order of operations of the model; CasADi may compute in another
  order, in particular the inverse inside `J_ee_pinv`, modelled by cofactors.
  The YAML literal for pi/2 is read as the real pi/2 where exactness of a rotation matters: theorems
  about exact rotations carry the hypothesis that every *constant* angle keeps a unit (cos, sin) pair
  after the code's 1e-15 snapping; symbolic angles need no hypothesis, and an unconditional error
  bound is proved too.
* CasADi is trusted to evaluate and differentiate expressions exactly (its structural
  simplifications do not change values), and to raise an error on a dimension mismatch. Its
  derivative is modelled by an explicit symbolic `diff`, proved sound against Coquelicot's `is_derive`.
* YAML text parsing/printing and the file system are not modelled: a file is a YAML tree.
* Standard output, performance and the run-time side of the Python bindings are not modelled (their generated text is).

## 2. Plan per property

| id | modelled as | proof |
|---|---|---|
| C01 | value of the published function = product of literal 4x4 DH matrices written in `Spec` | induction on the joint index |
| C02 | R^T R = I, det = 1; bound on squared norms with snapping | induction on the chain |
| C03 | outcome `Throw` of the build | induction on the joint loop |
| C04-C06, C09 | `is_derive` of the frame origin / rotation along any trajectory | soundness of `diff` + induction on the chain (derivative of a rotation is hat(axis) times it) |
| C07, C17 | `is_derive` of the evaluated entry | soundness of `jtimes` |
| C08 | existence of the inverse and strict minimality | positive definiteness of JJ^T + mu I |
| C10-C12 | symmetric, kinetic energy identity, (semi)definiteness | algebra on finite sums; induction on joints for definiteness |
| C13, C14 | explicit Christoffel sum; skew form | column-major index algebra |
| C15, C16 | gradient, Euler-Lagrange, power balance with `is_derive` | C04/C09 + C13 |
| C18-C20 | matrix identity in R; independence of environment | first moments/inertia linearity, hat(Rc)=R hat(c) R^T |
| C21 | mutual inverse functions on lists | algebra |
| C22, C23 | oddness, sign, linearity | induction on the order |
| C24 | refuted: witness robot with the SEA joint not first; right at every posture exactly when the i-th elastic joint is joint i | computation; the odd laws are strictly increasing |
| C25 | columns are partial derivatives; linear claim refuted | soundness of `diff`; witness |
| C26, C27 | symbols of expr within inputs; equality of values under two flag choices | structural induction on the build |
| C28, C46 | poison flag false, sizes; CasADi's rule for function names; list of keys | structural |
| C29-C36 | state machine theorems over arbitrary states/histories | case analysis, induction on histories |
| C33 | refuted for the unchanged code | witness |
| C34 | UB outcome characterised; refuted for too many links | witness + sufficient condition |
| C37 | declarative specification of leftmost non-overlapping replacement | strong induction on the string |
| C38 | text/arity of generated getters | structural |
| C39 | string theorem; refuted for non-.yaml | witness |
| C40 | refuted: entry (0,2) has the wrong sign; exact condition for correctness | algebra, witness |
| C41, C42 | REG(merge) = REG + REG; rotation of tensors | algebra |
| C43-C45 | generated class state machine | case analysis; C45 refuted for partial flags |
| C47 | `add_function` on every robot; refuted after partial construction | dependency analysis of expressions; witness |
| C48 | entries of the published K, D, Dm, Mm matrices | structural |
| C49 | file written by the robot class, read by the generated class | induction on the links |
| C50 | relation `as_written` between the YAML tree and the robot, by key and position | induction on the parser's loops |
| C51 | refuted (a caught exception zeroes the rest); sections proved | witness; case analysis |
| C52 | frame class; refuted for wrong lengths | computation, witness |
| C53-C55 | two robots, relation on their last (first) joints | induction on the chain from the common joint; Christoffel form |
| C56 | identity between published functions | unfolding the published expressions, algebra |
| C57 | the two files as trees; composition with C50 and the generated class; refuted with friction | induction on the links; witness |
| C58 | bodies seen from the DH frames; refuted for incomplete entries | C41, C42, induction on the table; witness |
| C59 | the written tree, `load_par` on it; refuted for the kinematic arguments | C32 lemmas; witness |
| C60 | `Model/Main.v`: a run as a function on files, with its ending; complete, confined, usable; refuted: status, abandoned runs | symbolic execution of the run, frame lemmas, C45, C49; witnesses |
| C61 | the exact template texts; result of all substitutions in closed form | splitting the text at the patterns once (vm_compute on the template), induction on the pieces for any name |
| C62 | the getter names against the members declared by the template | prefixes of the catalogue's names |
| C63 | sessions that differ in q only, by whole turns of revolute joints | syntactic invariant: such a q occurs only as a summand directly under sine or cosine; preserved by every operation and by differentiation |
| C64 | sessions that differ in dq only | Christoffel form of C (C13), symmetry of the derivatives of M |
| C65 | `Model/Crash.v`: the run as a list of changes to files (proved equal to the program), killed between or inside them; any number of killed runs | every file that is read was written before by the same run, so complete runs agree on what they write; induction on the steps |
| C66 | refuted (files are overwritten in place); confinement and order of the changes proved | witness; paths of the steps |
| C67 | `Model/Threads.v`: the body of a generated getter step by step (entry into the work array, into the buffer, copy of the buffer), any number of threads, one step per scheduled thread | invariant: what a thread has plus what its buffers hold is the sequential result; a measure for progress |
| C68 | refuted (`load_conf` of a file without flags shortens the table); proved for histories whose files select what the configuration selects | witness for every robot with a symbolic table entry; invariant on vector lengths |
| C69 | `Spec/Control.v`: three control laws and their energies, in terms of the published `M`, `C`, `G`, `Yr` | skew-symmetry and the regressor identity give the rate; a function with a derivative that is never positive does not grow (from completeness alone) |
| C70 | refuted (links and elastic joints are taken in file order, their names are ignored); proved for all other entries, and for other names and unknown entries | relation on YAML trees; congruence of every reader |
| C71 | refuted when an inertial parameter is numeric (the reload stores the whole vector, the functions take the compacted one); what a reload writes proved for every robot, restoring proved when these parameters are symbolic | the readers depend only on the dimensions of the robot; both loads read the same numbers |
| C72 | refuted for two commands with the same robot name in one directory (no lock, fixed file names); proved for commands whose outputs are disjoint, and for different names without `--copy` | `Model/Parallel.v`: the runs of `Model/Crash.v` as processes on shared files, a file being written may hold anything; each process uses only its own output, so what it will still do is invariant under the steps of the others |
| C73 | for all torques exactly one acceleration; the response of the tool to a wrench is never against it | M is positive definite (C12), hence its determinant is positive (cofactor expansion, `Proofs/Determinant.v`) and the adjugate solves the system; changing `ddq` leaves M, C, G unchanged because their expressions do not contain it |
| C74 | M, C, G and torques of the loaded robot are sums | `mergeBodyInertial` (`Model/Bodies.v`) adds the barycentric parameters of the two bodies; torques are linear in these (C17), and M and C columns are torques for unit `ddqr`/`dqr` in Yr |
| C75 | no undefined operation in any published formula; continuity in the reported arguments | `has_value` (`Spec/Defined.v`) plus continuity as a predicate kept by every construction of the model (`Proofs/Rel.v`, `Proofs/Defined.v`): the only roots are of squares, the only divisions are by nonzero constants and by the determinant of a damped Gram matrix, which is positive |
| C76 | bounds of all published functions, of C by the speed, of M from below, of the damped pseudo-inverse | revolute positions occur only under sine and cosine (`Proofs/Turns.v`) and divisions are by constants, so every formula is bounded by induction; M from below joint by joint: the velocity of link j gives the velocity of joint j up to those of the joints before it; the pseudo-inverse from its least-squares characterisation (C08) |
| C77 | equations of links, springs and motors (`Spec/Elastic.v`) built from the published functions; energy balance, signs, passivity | C16 for the links, the closed forms of `k`, `d`, `dm`, `dl`, `Mm` (C22, C24, C48) and the derivative of a power for the springs; a function whose derivative is at most that of the work grows no more than it |
| C78 | the two test programs as sequences of API calls with the Eigen operations they use (`Model/Clients.v`); output as a list of labelled matrices | the setters keep a session, `get` answers every name, C18 with the stored `par_REG` (C30) gives the zero; for the generated class C45 in a session whose state is the object's |
| C79 | the shipped YAML files as trees of the YAML model, number texts kept and the anchor `PI_2` a parameter `h` (`Spec/Shipped.v`) | the kernel computes the loader on each tree with `h` a variable; consistency, angles and flags by boolean checks proved sound; inertias by Sylvester's criterion over rationals; then C12, C45, C73 and C78 apply |
| C80 | the control laws as torques computed from the published functions (`Spec/Control.v`, `Spec/Tracking.v`); time continuous, no sampling or delay | C08 gives the rate of 1/2 s^T M s; with C76 the form is between c and mu times the square of s, so the product with an exponential decreases; C69 and c bound the rest |
| C81 | as C76; the acceleration is the one in the state, the torques M ddq + C dq + G | C76 bounds M from below, C and G from above; Cauchy's inequality on ddq^T M ddq |
| C82 | floating point evaluation of the expressions, each operation with any error of relative or absolute size u (`Spec/Rounding.v`) | the formulas divide only by constants other than zero and take roots only of squares, a property every construction and `diff` keep (`kept` of C75); induction over formulas; for the pseudo-inverse the determinant is at least MU^6 by Schur complements. IEEE doubles are an instance (Flocq, used in the non-vacuity example only) |
| C83 | as C75 and C82 | every formula divides only by what stays away from zero and takes roots only of squares; positions of revolute joints occur only under sine and cosine (C63); induction over formulas with a bound and a Lipschitz constant |
| C84 | `Model/UserDefined.v`: the construction with any body of `compute_userDefined`; user code as a list of `add_function` calls | invariant of the robot between two calls (vectors untouched, new entries of `symb` empty); then `update_symb_parameters` as for the shipped construction; evaluation as in C47 |
| C85 | `Model/UserDefined.v`: `compute_example_fun` | instance of C84 for the Robot object. Refuted for lists that are too short and for the generated class, see section 5 |
| C86 | the setters and `load_conf` of `Model/Template.v`, as for C45 | `load_conf` leaves the DH table, the two frames and gravity with their symbolic elements only (`Proofs/TLoad.v`), so the setter takes a vector of that length; then C45. Refuted for the other parameters and for objects without `load_conf`, see section 5 |
| C87 | `Model/Chrono.v`: both timing programs, with an arbitrary sequence of clock readings | `Spec/Chrono.v` says what is to be printed; induction over repetitions, functions and files. The calls succeed by totality of `get` and, for the generated class, by C68. Refuted for calls over a second and, in the generated class, for clocks that show no difference, see section 5 |
| C88 | `load_conf` of the generated class in `Model/Template.v`, on an object after any history (`reached`) | `Spec/TReload.v` says when a file gives every parameter. Each of the six stages is followed on an arbitrary object: the kinematic ones are restored in every case, the loops over links and joints are shown to overwrite their vectors completely, so two loads end with the same values, and one of them starts from a new object (C45). That the friction entries are there follows from the class having been generated. That the load returns normally is shown by comparing it, stage by stage, with the load of a new object: both end in the same way. Refuted for files with fewer links and for files without `symb` entries, see section 5 |

## 3. Trusted base

1. Coq's kernel (8.16.1), the checker run by the gate, and the compiler from `.v` to `.vo`.
2. The axioms listed by `Print Assumptions` below every theorem. Only three occur, all from the standard library:
   * **F** `ClassicalDedekindReals.sig_forall_dec`: `forall P : nat -> Prop, (forall n, {P n} + {~ P n}) -> {n | ~ P n} + {forall n, P n}`
   * **N** `ClassicalDedekindReals.sig_not_dec`: `forall P : Prop, {~ ~ P} + {~ P}`
   * **E** `FunctionalExtensionality.functional_extensionality_dep`: `forall A B (f g : forall x : A, B x), (forall x, f x = g x) -> f = g`

   They are the axioms of the standard library's real numbers. No axiom is added by this development.
3. The reading of the C++ sources by which the model was written. Every definition cites the lines it models; the
   theorems say nothing about code that differs from that reading.
4. The idealisations of section 1, and the following facts about libraries, which are part of the model:
   * CasADi: element-wise operations, products, slices, `jacobian` and `jtimes` have their mathematical meaning;
     `Function` raises an error when its expression has a symbol that is not an input; `inv` of a small matrix is the
     inverse computed by cofactors; `pinv` is not used by the modelled code.
   * Eigen: a comma initialiser, `segment` or element access outside the size is undefined behaviour (an assertion).
   * yaml-cpp: `operator[]` on a missing key gives an undefined node (an invalid one on a const node); conversions throw;
     iteration is in document order.
   * C generated by CasADi computes the values of the function it was generated from.

### Assumptions of each theorem
<!-- assumptions -->
| axioms | theorems |
|---|---|
| F, N, E | C01_forward_kinematics, C01_forward_kinematics_any_angle, C02_lengths_any_angle, C02_transforms_rigid, C03_built, C03_functions, C03_raises, C04_link_velocity, C05_link_angular_velocity, C06_tool_velocity, C07_jacobian_rates, C08_damped_pinv, C09_com_velocity, C10_mass_symmetric, C11_kinetic_energy, C12_mass_definite, C12_mass_semidefinite, C13_coriolis_christoffel, C14_skew, C15_gravity_gradient, C16_euler_lagrange, C16_power_balance, C17_coriolis_rates, C17_gravity_rates, C17_inertia_rates, C18_regressor_identity, C19_partial_regressors, C19_sum_of_parts, C20_independent, C20_independent_across, C22_dissipative, C22_friction_laws, C22_odd, C23_regressors, C24_always_partial, C24_as_computed_partial, C24_elastic_first_partial, C24_elastic_joint_refuted, C24_exact_partial, C25_kinematic_regressors_partial, C25_linear_refuted, C26_depends_on_inputs, C26_no_free_symbol, C27_selection_irrelevant, C28_build_succeeds, C28_name_needed, C28_sizes, C29_history, C29_motors_raise, C29_motors_refuted, C29_par_DYN_refuted, C29_refuses, C30_built, C30_loaded, C30_refuted, C31_assignment, C31_get_published, C31_get_unknown, C33_refuted, C34_load_safe_partial, C34_refuted, C35_compaction, C36_redefined, C40_exactly_partial, C40_refuted, C40_rotations_partial, C42_exactly_partial, C42_form, C42_refuted, C42_transform_partial, C45_agrees_partial, C45_getters, C45_refuted, C46_published_names, C47_refuted, C47_user_function, C48_coefficient_matrices, C50_as_written, C51_refuted, C51_sections_partial, C52_getters_partial, C52_refuted, C53_coriolis, C53_gravity, C53_mass, C53_torques, C54_beyond, C54_head, C55_linear, C55_weightless, C56_gravity, C56_mass, C57_loaded_partial, C57_refuted, C58_files_partial, C58_refuted, C58_stops, C59_refuted, C60_abandoned_refuted, C60_confined, C60_copy, C60_generated, C60_refused, C60_status, C60_status_refuted, C60_usable_partial, C61_header, C61_linked, C61_source, C62_members, C63_turns, C64_linear, C64_swap, C65_again, C65_recovers, C66_confined_partial, C66_last_partial, C66_refuted, C67_answers, C67_completes, C67_threads, C68_inside_partial, C68_own, C68_refuted, C69_adaptive, C69_bounded, C69_computed, C69_position, C69_settles, C70_order_partial, C70_refuted, C71_breaks, C71_refuted, C71_restores_partial, C71_usable_partial, C71_values, C72_independent_partial, C72_mixed_refuted, C72_twice_refuted, C73_forward, C73_pushed, C74_added, C75_continuous, C75_defined, C76_bounded, C76_coriolis, C76_inertia, C76_pinv, C77_balance, C77_passive, C77_signs, C77_springs, C78_generated_partial, C78_library_partial, C78_numeric, C78_refuted, C79_arms, C79_conditions, C79_generated, C79_loads_partial, C79_refuted, C79_semidefinite, C79_test, C80_adaptive, C80_decay, C80_speed, C81_acceleration, C82_machine, C82_rounding, C83_measured, C83_sensitivity, C84_class, C84_extension, C84_shipped, C85_absent, C85_class_refuted, C85_distance_partial, C85_short_refuted, C86_fresh_refuted, C86_ignored_refuted, C86_inertia_partial, C86_set_partial, C86_shipped, C86_table_partial, C86_whole_refuted, C87_called, C87_coarse_refuted, C87_files, C87_generated_called, C87_generated_partial, C87_library_partial, C87_slow_refuted, C88_answers_partial, C88_flags_refuted, C88_refuted, C88_restores_partial, C88_returns_partial |
| F, E | C21_generated_DYN, C21_generated_REG, C21_generated_round_trip, C21_round_trip_DYN, C21_round_trip_REG, C21_to_DYN, C21_to_REG, C30_generated_partial, C30_generated_refuted, C33_read_layout_partial, C41_merge, C43_history, C43_inertial_partial, C43_refuted, C43_setters, C44_DYN, C44_REG, C49_robot_to_generated, C52_hat, C57_files_partial |
| F | C29_accepts, C32_round_trip, C32_selection, C34_parse_safe_partial, C34_reports, C36_kept, C38_header, C38_python, C38_source, C52_constructors, C57_again_partial, C57_safe_partial, C59_contents, C59_loads_partial, C70_generated_partial |
| none | C37_empty, C37_replace_all, C39_names_partial, C39_refuted, C43_arguments, C43_table_partial, C61_cmake, C72_names_partial, C72_no_waiting |
<!-- end -->

## 4. What is modelled and what is not

Modelled, function by function:
* `src/kinematics.cpp`, `src/dynamics.cpp`, `src/regressors.cpp`, `src/FrameOffset.cpp`, `src/genYaml.cpp`: all functions.
* `src/robot.cpp`: all functions. `generate_library` is modelled as the files it writes; the text that CasADi's C code
  generator puts into them is not: such a file is kept as the list of functions it defines, which are used through the
  last fact of the list above. Getters that only return a member are the record fields.
* `src/userDefined.cpp`: all functions (`Model/UserDefined.v`); `compute_userDefined` is empty as shipped and any other body is a parameter.
* `src/utils.cpp`: all functions; the texts of the templates are in `Model/TemplateText.v`, character by character.
* `thunder_robot_template/thunder_robot.{h,cpp}`: all members except those listed below.
* `thunder_main.cpp`: everything after argument parsing (`Model/Main.v`): names, directories, the files in the order they
  are written, and how the run ends.
* The same program as a sequence of changes to files that can be killed anywhere, also in the middle of a file
  (`Model/Crash.v`; `gen_steps_run` proves that the sequence is the program).
* Any number of such runs at the same time, interleaved at every file operation (`Model/Parallel.v`); a read is one step.
* Threads: the generated getters as steps on thread-local buffers under any schedule (`Model/Threads.v`). Memory is
  sequentially consistent, a call of any other method is one step, and one number stands for the work array of the C function.
* The timing programs `thunder_test_chrono.cpp` and `/repo/src/thunder_robot_chrono` (`Model/Chrono.v`), as functions of the
  clock readings.
* `/repo/src/genYAML`: the whole program, except the copy switched off by a constant.

Not modelled: floating point, except the evaluation of the published functions (C82), and overflow; the text form of YAML; the file system beyond paths compared as strings (writing
into an existing directory succeeds); the parsing of options by argparse; standard output; how the C++ compiler, pybind11
and CMake read the generated texts; the text printed by the test programs, and the clock in them (`thunder_test.cpp` and
`thunder_robot_test.cpp` are modelled as clients of the API in `Model/Clients.v`; the shipped robots are in `Spec/Shipped.v`, transcribed from the YAML text by a script, with the anchor for pi/2 left as a parameter).

## 5. Where the code does not do what the property says

Each of these is a theorem named `_refuted` about the model, with a positive theorem for the case in which the property holds.
| property | behaviour of the code |
|---|---|
| C24 | stiffness and damping torque of elastic joint `i` use `q_i`, not the position of the i-th *elastic* joint |
| C25 | the kinematic "regressors" are Jacobians with respect to parameters that enter through sine and cosine: not linear |
| C29 | after construction `set_par_DYN` refuses the only vector length the robot stores if any inertial parameter is numeric; the motor setters raise on the length they ask for when there are series elastic joints but `ELASTIC_MODEL` is false |
| C30 | `set_par_DYN`/`set_par_REG` leave the other description unchanged (robot class); the generated class converts even when it refused the vector, and a YAML error in `load_conf` leaves the two out of step |
| C33 | `save_par_REG` and `load_par_REG` of the robot class use different layouts |
| C34 | more links than joints: write out of range; fewer joint types than joints, or a short coefficient list: read out of range |
| C39 | `find_last_of(".yaml")` searches for a *character* of the set, so names ending otherwise are cut arbitrarily |
| C40, C42 | entry (0,2) of the roll-pitch-yaw matrix has the wrong sign: not a rotation when both yaw and roll act |
| C43 | `set_par_DHtable` accepts a matrix of the right number of elements and fails an assertion; `set_par_DYN/REG` convert even when the size is wrong |
| C45 | `load_conf` of the generated class stores full inertial and friction vectors although the generated functions take compacted ones: different results with partially symbolic parameters |
| C47 | `add_function` after construction raises an error if a parameter is partially symbolic, after having changed the robot |
| C51 | an exception while reading links is swallowed: the remaining links silently have zero parameters |
| C52 | the setters of the frame class accept any length; the getters then read out of range |
| C57 | friction coefficients are looked up under the wrong key (no file is written); a link too many is written out of range |
| C58 | an entry without origin is skipped and later links move up by one; a short file is read out of range; `load_par_REG` ignores the files |
| C59 | `save_par` of the generated class writes four entries under names without `par_`: `load_par` does not find them, and loading the whole file raises an error |
| C60 | `main` returns 1 on success and 0 on reported errors; without HOME or without the installed templates the run is abandoned by an exception after part of the files has been written |
| C66 | every file is overwritten in place: a run that is killed damages a complete output, even one of the same configuration |
| C68 | `load_conf` of the generated class shrinks the DH table, the frames and gravity to what the *loaded* file flags as symbolic; a file with fewer flags (for instance the same table without `symb`) makes the getters read past the end of the vector |
| C70 | the entries under `dynamics` and under `elastic: joints` are assigned to the joints in the order of the file; `link2` before `link1` swaps the links without any message |
| C71 | `load_conf_par` on a built robot with some numeric inertial parameters stores all 10 n values where the functions expect only the symbolic ones; the next `get("M")` raises a CasADi dimension error |
| C72 | two `thunder gen` runs with the same robot name in one directory: one can read the header the other has just truncated and abort, or both succeed and leave the sources of one robot beside the configuration of the other |
| C78 | `thunder_test` prints `get_par_DYN()`, whose tail is never written as soon as an inertial parameter is numeric (so in the configuration `seaRRR.yaml` it names), and prints one zero as `par_DHtable`, which is not a function |
| C79 | `testRobots/R15.yaml` and `testRobots/R30.yaml` are in the format of version 0.1 (no `kinematics`, no `dynamics`): the loader refuses them. On `seaRRR.yaml`, `frankaWrist.yaml` and `R9_noDynSymb.yaml` the library's test program prints doubles that were never written |
| C85 | the example passes `q0` as an argument of its function, but the generated class has no member `q0`: its getter does not compile. A list `q0` with fewer numbers than joints is read out of range |
| C86 | `load_conf` compacts only the DH table, the two frames and gravity. A partly symbolic inertial, friction or elastic parameter keeps its full length, so a call with the symbolic elements is silently ignored. In an object that has not called `load_conf` this holds for every partly symbolic parameter; a vector of the full length is taken there, but the getters read its first elements as the symbolic ones |
| C87 | the minimum starts from 999999999 ns. If no call of a function takes less than a second, the program prints 0.999999999 s, a time that was not measured. The program of the generated class ignores calls that took 0 ns, so with a coarse clock it prints a second for the fastest functions |
| C88 | load_conf of the generated class only overwrites the links and joints the file mentions. A class generated from a file with fewer link entries than joints keeps, for the other links, the inertial parameters set before, whereas a new object has zeros there. Where its own file has no `symb` entry, load_conf uses the flags of whatever file was loaded before; if these are fewer than the elements, it reads past the end of the vector of flags |

A robot name that is not an identifier (`franka-fr3`, `7dof`, `arm_`) makes the construction raise an error that nothing
catches (C28_name_needed). Also seen, outside these properties: `replace_all` does not end on an empty pattern (C37_empty); `change_to_robot` reads
`isElasticJoint[0]` of a robot without joints; the public member `robotName` of the template becomes `<name>Name` in the
generated class, a name that contains `robot` is doubled in the include guard, and one that contains `THUNDERROBOT`
breaks it (C61); the converter
constructs a normal distribution of deviation zero, which the C++ standard does not allow.
