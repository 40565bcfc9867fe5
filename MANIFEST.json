{
 "claims": [
  {
   "property": "C01",
   "status": "proved",
   "theorems": [
    "C01_forward_kinematics",
    "C01_forward_kinematics_any_angle"
   ],
   "note": "Exact chain when constant angles within 1e-15 of a multiple of pi/2 are that multiple; chain with the code's rounding made explicit otherwise."
  },
  {
   "property": "C02",
   "status": "proved",
   "theorems": [
    "C02_transforms_rigid",
    "C02_lengths_any_angle"
   ],
   "note": "Rigid exactly under the same angle condition; a quantitative bound without it."
  },
  {
   "property": "C03",
   "status": "proved",
   "theorems": [
    "C03_built",
    "C03_functions",
    "C03_raises"
   ],
   "note": "Any configuration tree; the exact exception for configurations that are otherwise consistent."
  },
  {
   "property": "C04",
   "status": "proved",
   "theorems": [
    "C04_link_velocity"
   ],
   "note": ""
  },
  {
   "property": "C05",
   "status": "proved",
   "theorems": [
    "C05_link_angular_velocity"
   ],
   "note": ""
  },
  {
   "property": "C06",
   "status": "proved",
   "theorems": [
    "C06_tool_velocity"
   ],
   "note": ""
  },
  {
   "property": "C07",
   "status": "proved",
   "theorems": [
    "C07_jacobian_rates"
   ],
   "note": "Derivatives along any motion of the loaded robot; no condition on the constant angles."
  },
  {
   "property": "C08",
   "status": "proved",
   "theorems": [
    "C08_damped_pinv"
   ],
   "note": "CasADi inv modelled by cofactors over determinant; exact reals"
  },
  {
   "property": "C09",
   "status": "proved",
   "theorems": [
    "C09_com_velocity"
   ],
   "note": ""
  },
  {
   "property": "C10",
   "status": "proved",
   "theorems": [
    "C10_mass_symmetric"
   ],
   "note": "every session, every state"
  },
  {
   "property": "C11",
   "status": "proved",
   "theorems": [
    "C11_kinetic_energy"
   ],
   "note": "exact_angles excludes non-symbolic angles whose sine or cosine is snapped to 0 without being 0"
  },
  {
   "property": "C12",
   "status": "proved",
   "theorems": [
    "C12_mass_semidefinite",
    "C12_mass_definite"
   ],
   "note": "definite case asks positive mass only at prismatic and positive definite inertia only at revolute joints; includes trivial kernel"
  },
  {
   "property": "C13",
   "status": "proved",
   "theorems": [
    "C13_coriolis_christoffel"
   ],
   "note": ""
  },
  {
   "property": "C14",
   "status": "proved",
   "theorems": [
    "C14_skew"
   ],
   "note": ""
  },
  {
   "property": "C15",
   "status": "proved",
   "theorems": [
    "C15_gravity_gradient"
   ],
   "note": "under exact_angles"
  },
  {
   "property": "C16",
   "status": "proved",
   "theorems": [
    "C16_euler_lagrange",
    "C16_power_balance"
   ],
   "note": "under exact_angles"
  },
  {
   "property": "C17",
   "status": "proved",
   "theorems": [
    "C17_inertia_rates",
    "C17_coriolis_rates",
    "C17_gravity_rates"
   ],
   "note": "Derivatives along any motion; no condition on the constant angles."
  },
  {
   "property": "C18",
   "status": "proved",
   "theorems": [
    "C18_regressor_identity"
   ],
   "note": "Every th that lists mass, first moment and origin inertia of the links; constant angles exact (see DESIGN)."
  },
  {
   "property": "C19",
   "status": "proved",
   "theorems": [
    "C19_partial_regressors",
    "C19_sum_of_parts"
   ],
   "note": "Parts for every th describing the links; the sum needs no assumption on angles."
  },
  {
   "property": "C20",
   "status": "proved",
   "theorems": [
    "C20_independent",
    "C20_independent_across"
   ],
   "note": "Within one configuration, and across configurations that differ only in inertial parameters."
  },
  {
   "property": "C21",
   "status": "proved",
   "theorems": [
    "C21_to_REG",
    "C21_to_DYN",
    "C21_round_trip_DYN",
    "C21_round_trip_REG",
    "C21_generated_REG",
    "C21_generated_DYN",
    "C21_generated_round_trip"
   ],
   "note": "Robot class and generated class: the conversions, both round trips, and agreement of the two implementations, for every number of joints and every parameter vector (nonzero masses where the code divides by the mass)."
  },
  {
   "property": "C22",
   "status": "proved",
   "theorems": [
    "C22_friction_laws",
    "C22_odd",
    "C22_dissipative"
   ],
   "note": "d is dissipative for the rate dx_i - dq_i it is computed from (see C24 for the joint index)"
  },
  {
   "property": "C23",
   "status": "proved",
   "theorems": [
    "C23_regressors"
   ],
   "note": "for every selection of symbolic coefficients"
  },
  {
   "property": "C24",
   "status": "partial",
   "theorems": [
    "C24_elastic_first_partial",
    "C24_as_computed_partial",
    "C24_exact_partial",
    "C24_always_partial",
    "C24_elastic_joint_refuted"
   ],
   "note": "holds when the elastic joints come first in the chain; false in general, counterexample with only joint 3 elastic; C24_as_computed_partial says which joint is used on every robot, C24_exact_partial that with coefficients that push back the torque is right exactly when joint i and the i-th elastic joint have the same position (speed), C24_always_partial that it is right at every posture (speed) exactly when the i-th elastic joint is joint i"
  },
  {
   "property": "C25",
   "status": "partial",
   "theorems": [
    "C25_kinematic_regressors_partial",
    "C25_linear_refuted"
   ],
   "note": "columns are the partial derivatives; the linear-regressor reading is refuted"
  },
  {
   "property": "C26",
   "status": "proved",
   "theorems": [
    "C26_depends_on_inputs",
    "C26_no_free_symbol"
   ],
   "note": "Every published function of every well-formed configuration; the model of add_function also refuses free symbols, as CasADi does."
  },
  {
   "property": "C27",
   "status": "proved",
   "theorems": [
    "C27_selection_irrelevant"
   ],
   "note": "All published functions except the regressors whose columns are the symbolic parameters themselves; constant angles are assumed to have trigonometric values that are 0 or at least 1e-15 in size (exact_angles), because the code snaps smaller constants to 0."
  },
  {
   "property": "C28",
   "status": "proved",
   "theorems": [
    "C28_build_succeeds",
    "C28_sizes",
    "C28_name_needed"
   ],
   "note": "Consistent configurations whose robot name is an identifier. C28_name_needed: the name is part of every function's name, so a robot whose name is not an identifier never builds (CasADi raises)."
  },
  {
   "property": "C29",
   "status": "partial",
   "theorems": [
    "C29_accepts",
    "C29_refuses",
    "C29_history",
    "C29_par_DYN_refuted",
    "C29_motors_raise",
    "C29_motors_refuted"
   ],
   "note": "Every setter on a stored vector of declared length; arbitrary histories of the state setters on a built robot. The claim is false for the parameter setters of a built robot whose parameters are partly numeric (vectors are compacted but the expected size is not): refutation for set_par_DYN. Also refuted for the motor setters of a robot with series elastic joints and ELASTIC_MODEL false."
  },
  {
   "property": "C30",
   "status": "partial",
   "theorems": [
    "C30_loaded",
    "C30_built",
    "C21_to_REG",
    "C21_to_DYN",
    "C30_refuted",
    "C30_generated_partial",
    "C30_generated_refuted"
   ],
   "note": "Robot class: the two descriptions agree after loading, after construction and after either conversion; set_par_DYN on a built robot leaves par_REG stale (refutation). Generated class: agreement after every history of calls that ask for the update with nonzero masses and complete files; an incomplete link in a file breaks it (refutation)."
  },
  {
   "property": "C31",
   "status": "proved",
   "theorems": [
    "C31_get_published",
    "C31_assignment",
    "C31_get_unknown"
   ],
   "note": ""
  },
  {
   "property": "C32",
   "status": "proved",
   "theorems": [
    "C32_round_trip",
    "C32_selection"
   ],
   "note": "Any robot, any list of names, any selection; the receiving robot must hold vectors of the same lengths."
  },
  {
   "property": "C33",
   "status": "partial",
   "theorems": [
    "C33_refuted",
    "C33_read_layout_partial"
   ],
   "note": "False of the code: save_par_REG and load_par_REG use different layouts and loading the saved file zeroes all parameters. Positive part: a file in the layout read by load_par_REG restores the vector."
  },
  {
   "property": "C34",
   "status": "partial",
   "theorems": [
    "C34_reports",
    "C34_parse_safe_partial",
    "C34_load_safe_partial",
    "C34_refuted"
   ],
   "note": "Reported values and defaults for every YAML tree; memory safety under explicit size conditions; safety for every tree is false of the code (three witnesses)."
  },
  {
   "property": "C35",
   "status": "proved",
   "theorems": [
    "C35_compaction"
   ],
   "note": ""
  },
  {
   "property": "C36",
   "status": "proved",
   "theorems": [
    "C36_kept",
    "C36_redefined"
   ],
   "note": "Outcome and frame of add_function for any robot."
  },
  {
   "property": "C37",
   "status": "proved",
   "theorems": [
    "C37_replace_all",
    "C37_empty"
   ],
   "note": "Termination for non-empty from, result equals the declarative leftmost non-overlapping substitution, uniquely; the loop does not end for empty from."
  },
  {
   "property": "C38",
   "status": "proved",
   "theorems": [
    "C38_source",
    "C38_python",
    "C38_header"
   ],
   "note": "Text of the generated getters, declarations and bindings for every list of published functions; the behaviour of the getters is in C45."
  },
  {
   "property": "C39",
   "status": "partial",
   "theorems": [
    "C39_names_partial",
    "C39_refuted"
   ],
   "note": "Names are right for every .yaml path; the exact set of rejected paths is proved and is not the set of non-.yaml paths (find_last_of searches a set of characters)."
  },
  {
   "property": "C40",
   "status": "partial",
   "theorems": [
    "C40_rotations_partial",
    "C40_exactly_partial",
    "C40_refuted"
   ],
   "note": "Correct exactly when sin yaw * sin roll = 0, and for every other angle the matrix is not even a rotation: entry (0,2) has the wrong sign."
  },
  {
   "property": "C41",
   "status": "proved",
   "theorems": [
    "C41_merge"
   ],
   "note": "For non-zero total mass."
  },
  {
   "property": "C42",
   "status": "partial",
   "theorems": [
    "C42_transform_partial",
    "C42_form",
    "C42_exactly_partial",
    "C42_refuted"
   ],
   "note": "Rigid when both rotations avoid the wrong entry of rpyRot; refuted otherwise. C42_exactly_partial: centres of mass move rigidly exactly when yaw or roll is a multiple of pi."
  },
  {
   "property": "C43",
   "status": "partial",
   "theorems": [
    "C43_setters",
    "C43_history",
    "C43_arguments",
    "C43_table_partial",
    "C43_inertial_partial",
    "C43_refuted"
   ],
   "note": "Every reachable object and every history. False of the code for two setters: set_par_DYN converts after refusing the vector, and set_par_DHtable meets an Eigen assertion on a matrix with the right number of elements."
  },
  {
   "property": "C44",
   "status": "proved",
   "theorems": [
    "C44_REG",
    "C44_DYN"
   ],
   "note": "From any reachable object into any other object of the same class."
  },
  {
   "property": "C45",
   "status": "partial",
   "theorems": [
    "C45_getters",
    "C45_agrees_partial",
    "C45_refuted"
   ],
   "note": "Agreement for every configuration whose inertial, friction and elastic parameters are each fully symbolic or fully numeric (kinematic ones arbitrary); false when one is partly symbolic because load_conf does not compact it."
  },
  {
   "property": "C46",
   "status": "proved",
   "theorems": [
    "C46_published_names"
   ],
   "note": ""
  },
  {
   "property": "C47",
   "status": "partial",
   "theorems": [
    "C47_user_function",
    "C47_refuted"
   ],
   "note": "Proved for functions over fully symbolic arguments; false for partially symbolic parameters because the selection flags are not compacted after construction."
  },
  {
   "property": "C48",
   "status": "proved",
   "theorems": [
    "C48_coefficient_matrices"
   ],
   "note": "all orders"
  },
  {
   "property": "C49",
   "status": "proved",
   "theorems": [
    "C49_robot_to_generated"
   ],
   "note": "Every robot and every reachable receiving object."
  },
  {
   "property": "C50",
   "status": "proved",
   "theorems": [
    "C50_as_written"
   ],
   "note": "as_written (Spec/Values.v) states the claim entry by entry, for every tree that loads"
  },
  {
   "property": "C51",
   "status": "partial",
   "theorems": [
    "C51_sections_partial",
    "C51_refuted"
   ],
   "note": "proved for DH, Base_to_L0 and Ln_to_EE; refuted for the numbers of links: the YAML exception is caught, loading stops, and a robot with zeros for the following links is returned"
  },
  {
   "property": "C52",
   "status": "partial",
   "theorems": [
    "C52_constructors",
    "C52_getters_partial",
    "C52_hat",
    "C52_refuted"
   ],
   "note": "proved for histories of three-element vectors; refuted otherwise: the setters accept any length and the getters then read past the end"
  },
  {
   "property": "C53",
   "status": "proved",
   "theorems": [
    "C53_mass",
    "C53_coriolis",
    "C53_gravity",
    "C53_torques"
   ],
   "note": "two robots with a common tail; needs exact angles (constant angles within 1e-15 of a multiple of pi/2 are that multiple)"
  },
  {
   "property": "C54",
   "status": "proved",
   "theorems": [
    "C54_head",
    "C54_beyond"
   ],
   "note": "C55_met shows a pair meeting the hypotheses"
  },
  {
   "property": "C55",
   "status": "proved",
   "theorems": [
    "C55_linear",
    "C55_weightless"
   ],
   "note": ""
  },
  {
   "property": "C56",
   "status": "proved",
   "theorems": [
    "C56_mass",
    "C56_gravity"
   ],
   "note": "hypothesis is only a session, see dynamics_hypotheses_met"
  },
  {
   "property": "C57",
   "status": "partial",
   "theorems": [
    "C57_files_partial",
    "C57_again_partial",
    "C57_loaded_partial",
    "C57_safe_partial",
    "C57_refuted"
   ],
   "note": "Refuted as stated: with Dl_order > 0 the coefficients are looked up under the wrong key and nothing is written; a link more than joints is written out of range. Proved for configurations without friction and one link per joint."
  },
  {
   "property": "C58",
   "status": "partial",
   "theorems": [
    "C58_files_partial",
    "C58_refuted",
    "C58_stops"
   ],
   "note": "Refuted as stated: an entry without xyz/rpy is skipped and shifts the links, a short file is read out of range, and the files lack the dynamics level load_par_REG looks for. Proved for complete files whose link frames do not combine roll and yaw."
  },
  {
   "property": "C59",
   "status": "partial",
   "theorems": [
    "C59_contents",
    "C59_loads_partial",
    "C59_refuted"
   ],
   "note": "Contents of the file for every object; the seven arguments whose key is their own name are restored exactly. The four kinematic arguments are written under names load_par does not know (C59_refuted)."
  },
  {
   "property": "C60",
   "status": "partial",
   "theorems": [
    "C60_generated",
    "C60_status",
    "C60_confined",
    "C60_refused",
    "C60_copy",
    "C60_usable_partial",
    "C60_status_refuted",
    "C60_abandoned_refuted"
   ],
   "note": "All files with their contents, all or nothing for runs that return a status, no other file touched, refused configurations write nothing. Refuted: the status is inverted, and a run without templates or HOME stops half way. Usability inherits the limits of C45."
  },
  {
   "property": "C61",
   "status": "proved",
   "theorems": [
    "C61_header",
    "C61_source",
    "C61_cmake",
    "C61_linked"
   ],
   "note": "For identifier names without THUNDERROBOT and descriptions without '#'."
  },
  {
   "property": "C62",
   "status": "proved",
   "theorems": [
    "C62_members"
   ],
   "note": ""
  },
  {
   "property": "C63",
   "status": "proved",
   "theorems": [
    "C63_turns"
   ],
   "note": "All published functions but k and reg_k; sessions that differ in q only."
  },
  {
   "property": "C64",
   "status": "proved",
   "theorems": [
    "C64_linear",
    "C64_swap"
   ],
   "note": "Sessions that differ in dq only."
  },
  {
   "property": "C65",
   "status": "proved",
   "theorems": [
    "C65_recovers",
    "C65_again"
   ],
   "note": "The process is killed; loss of data that the operating system has not written to disk is not modelled."
  },
  {
   "property": "C66",
   "status": "partial",
   "theorems": [
    "C66_refuted",
    "C66_confined_partial",
    "C66_last_partial"
   ],
   "note": "Refuted: files are overwritten in place, so a killed run can damage a complete output. Proved: nothing outside the output is touched, and _par_REG.yaml is written last."
  },
  {
   "property": "C67",
   "status": "proved",
   "theorems": [
    "C67_threads",
    "C67_completes",
    "C67_answers"
   ],
   "note": "The body of the generated getters, step by step on thread_local buffers, under every schedule; sequentially consistent memory. Sharing an object that some thread modifies is excluded: the class has no locks."
  },
  {
   "property": "C68",
   "status": "partial",
   "theorems": [
    "C68_inside_partial",
    "C68_own",
    "C68_refuted"
   ],
   "note": "Refuted: load_conf of a file that flags fewer parameters makes getters read past the end of the vectors. Proved for all histories whose files select what the configuration of the class selects."
  },
  {
   "property": "C69",
   "status": "proved",
   "theorems": [
    "C69_computed",
    "C69_position",
    "C69_adaptive",
    "C69_bounded",
    "C69_settles"
   ],
   "note": "Control laws written with published functions, over the modelled robot"
  },
  {
   "property": "C70",
   "status": "partial",
   "theorems": [
    "C70_order_partial",
    "C70_generated_partial",
    "C70_refuted"
   ],
   "note": "Links and elastic joints are read in file order whatever their names, which refutes the full claim; every other order is immaterial"
  },
  {
   "property": "C71",
   "status": "partial",
   "theorems": [
    "C71_values",
    "C71_usable_partial",
    "C71_restores_partial",
    "C71_breaks",
    "C71_refuted"
   ],
   "note": "What a reload writes holds for every robot. Restoring holds when all reloaded parameters are symbolic; with numeric and symbolic inertial parameters mixed the code refutes it: M can no longer be evaluated."
  },
  {
   "property": "C72",
   "status": "partial",
   "theorems": [
    "C72_independent_partial",
    "C72_names_partial",
    "C72_no_waiting",
    "C72_twice_refuted",
    "C72_mixed_refuted"
   ],
   "note": "Proved for commands whose outputs have no file in common (any number, any schedule, any of them killed), which holds for different names in one directory without --copy. Refuted for two commands with the same name in one directory."
  },
  {
   "property": "C73",
   "status": "proved",
   "theorems": [
    "C73_forward",
    "C73_pushed"
   ],
   "note": "Non-vacuity: C73_met."
  },
  {
   "property": "C74",
   "status": "proved",
   "theorems": [
    "C74_added"
   ],
   "note": "Non-vacuity: C74_met."
  },
  {
   "property": "C75",
   "status": "proved",
   "theorems": [
    "C75_defined",
    "C75_continuous"
   ],
   "note": "Real arithmetic. Non-vacuity: C75_met."
  },
  {
   "property": "C76",
   "status": "proved",
   "theorems": [
    "C76_bounded",
    "C76_coriolis",
    "C76_inertia",
    "C76_pinv"
   ],
   "note": "Real arithmetic. Non-vacuity: C76_met (unlimited turns of the first joint)."
  },
  {
   "property": "C77",
   "status": "proved",
   "theorems": [
    "C77_balance",
    "C77_springs",
    "C77_signs",
    "C77_passive"
   ],
   "note": "For robots whose elastic joints come first; for others k and d use another joint (C24)."
  },
  {
   "property": "C78",
   "status": "partial",
   "theorems": [
    "C78_library_partial",
    "C78_numeric",
    "C78_refuted",
    "C78_generated_partial"
   ],
   "note": "Both test programs proved to print what the robot answers and a zero difference, for every state; refuted when an inertial parameter is numeric (the program prints values never written), and par_DHtable is printed as a single zero. Generated class: as C45, uniform flags for the parameters of the dynamics."
  },
  {
   "property": "C79",
   "status": "partial",
   "theorems": [
    "C79_loads_partial",
    "C79_refuted",
    "C79_conditions",
    "C79_semidefinite",
    "C79_arms",
    "C79_generated",
    "C79_test"
   ],
   "note": "13 of the 15 shipped files load, build and meet the conditions of the other theorems; the two files in the old format are refused (C79_refuted), so the full claim is false of the code"
  },
  {
   "property": "C80",
   "status": "proved",
   "theorems": [
    "C80_decay",
    "C80_adaptive",
    "C80_speed"
   ],
   "note": "constants depend on the robot and the limits only"
  },
  {
   "property": "C81",
   "status": "proved",
   "theorems": [
    "C81_acceleration"
   ],
   "note": ""
  },
  {
   "property": "C82",
   "status": "proved",
   "theorems": [
    "C82_rounding",
    "C82_machine"
   ],
   "note": "all published functions and entries; the order of the operations is that of the model, in particular the inverse inside J_ee_pinv is by cofactors; overflow is excluded"
  },
  {
   "property": "C83",
   "status": "proved",
   "theorems": [
    "C83_sensitivity",
    "C83_measured"
   ],
   "note": "all published functions; for k and reg_k all joint positions are limited"
  },
  {
   "property": "C84",
   "status": "proved",
   "theorems": [
    "C84_extension",
    "C84_class",
    "C84_shipped"
   ],
   "note": "User functions are a list of add_function calls on the robot as compute_userDefined receives it."
  },
  {
   "property": "C85",
   "status": "partial",
   "theorems": [
    "C85_distance_partial",
    "C85_absent",
    "C85_short_refuted",
    "C85_class_refuted"
   ],
   "note": "Holds on the Robot object for lists with a number per joint; refuted for shorter lists (out of range read) and for the generated class (its getter names a member that does not exist)."
  },
  {
   "property": "C86",
   "status": "partial",
   "theorems": [
    "C86_set_partial",
    "C86_table_partial",
    "C86_inertia_partial",
    "C86_shipped",
    "C86_ignored_refuted",
    "C86_fresh_refuted",
    "C86_whole_refuted"
   ],
   "note": "Proved after load_conf for the DH table, the frames and gravity with any choice of symbolic elements, and for the other parameters when all their elements are symbolic. Refuted by the code for the other parameters when partly symbolic (the call is ignored), and for objects that have not called load_conf."
  },
  {
   "property": "C87",
   "status": "partial",
   "theorems": [
    "C87_library_partial",
    "C87_files",
    "C87_generated_partial",
    "C87_called",
    "C87_generated_called",
    "C87_slow_refuted",
    "C87_coarse_refuted"
   ],
   "note": "Proved for functions of which one call (in the generated class: one call with a positive time) takes less than a second. Otherwise both programs print a second, refuted. A normal end means that every timed function was called and answered."
  },
  {
   "property": "C88",
   "status": "partial",
   "theorems": [
    "C88_restores_partial",
    "C88_answers_partial",
    "C88_returns_partial",
    "C88_refuted",
    "C88_flags_refuted"
   ],
   "note": "Proved for every object of the generated class after any calls: loading the file the class was generated from returns normally, restores the parameters and keeps the state, and the published functions then answer like the robot of the file. Missing, because false of the code: files with fewer link entries than joints or with unreadable elastic coefficients (C88_refuted: a link that is not described keeps the mass it was given before), and files without symb entries after another file was loaded (C88_flags_refuted: access out of range)."
  }
 ]
}