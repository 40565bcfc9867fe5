{"id": "C01", "title": "Forward kinematics is the modified-DH chain", "statement": "For a robot built from a configuration, T_0_i (and T_0_ee) returns the product of the world-to-L0 frame, the modified Denavit-Hartenberg transforms (order a, alpha, d, theta; R joints add q to theta, P joints add q to d) of joints 1..i, and for T_0_ee the tool frame given as xyz + yaw-pitch-roll.", "quantifier": "every number of joints, every mix of R/P/R_SEA/P_SEA joints, every DH table, world and tool frame, every q, every choice of symbolic flags", "why_tests_cant": "numJoints and all parameters are unbounded reals; tests sample a handful of arms and postures", "anchors": ["src/thunder/src/kinematics.cpp:DHTemplate", "src/thunder/src/kinematics.cpp:get_transform", "src/thunder/src/kinematics.cpp:compute_chain"]}
{"id": "C02", "title": "Every returned transform is rigid", "statement": "The rotation block of every T_i, T_0_i, T_0_ee is orthonormal with determinant +1 and the last row is (0,0,0,1); the snapping of tiny sines and cosines to 0 never moves a squared length by more than 1e-30 per rotation.", "quantifier": "every configuration, posture and parameter value", "why_tests_cant": "a continuum of angles, and the snapping threshold only bites on a measure-zero set tests never hit", "anchors": ["src/thunder/src/kinematics.cpp:ZIS", "src/thunder/src/kinematics.cpp:R_x", "src/thunder/src/kinematics.cpp:R_y", "src/thunder/src/kinematics.cpp:R_z", "src/thunder/src/kinematics.cpp:get_transform"]}
{"id": "C03", "title": "Unknown joint types are rejected", "statement": "If any declared joint type is not one of R, P, R_SEA, P_SEA, building the functions of the robot raises an error; no transform, Jacobian or dynamics function is ever produced from an unknown type.", "quantifier": "every list of joint type strings and every position of the bad entry", "why_tests_cant": "infinitely many strings and positions", "anchors": ["src/thunder/src/kinematics.cpp:DHTemplate", "src/thunder/src/kinematics.cpp:compute_jacobians", "src/thunder/src/dynamics.cpp:DHJacCM"]}
{"id": "C04", "title": "J_i linear rows map joint rates to frame velocity", "statement": "For every link i, the first three rows of J_i times dq equal the time derivative of the origin of T_0_i along any differentiable joint motion.", "quantifier": "every chain, every posture, every differentiable trajectory, every instant", "why_tests_cant": "a statement about derivatives along all trajectories", "anchors": ["src/thunder/src/kinematics.cpp:compute_jacobians"]}
{"id": "C05", "title": "J_i angular rows map joint rates to angular velocity", "statement": "For every link i, the time derivative of the rotation of T_0_i equals the cross-product matrix of (rows 4-6 of J_i times dq) times that rotation, along any differentiable joint motion.", "quantifier": "every chain, posture, trajectory, instant", "why_tests_cant": "as C04", "anchors": ["src/thunder/src/kinematics.cpp:compute_jacobians"]}
{"id": "C06", "title": "End-effector Jacobian", "statement": "J_ee (also published as J_{n+1}) satisfies C04 and C05 for the end-effector frame T_0_ee, including the tool offset.", "quantifier": "every chain, tool frame, posture, trajectory", "why_tests_cant": "as C04; the tool-offset term is a separate code path", "anchors": ["src/thunder/src/kinematics.cpp:compute_jacobians"]}
{"id": "C07", "title": "Jacobian time derivatives", "statement": "J_ee_dot and J_ee_ddot evaluated at (q, dq) / (q, dq, ddq) of a motion are the first and second time derivatives of J_ee along that motion.", "quantifier": "every chain and every twice differentiable trajectory", "why_tests_cant": "derivatives along all trajectories", "anchors": ["src/thunder/src/kinematics.cpp:compute_kin_adv"]}
{"id": "C08", "title": "Damped pseudo-inverse is defined everywhere and optimal", "statement": "J_ee_pinv is defined at every configuration including singular ones, and J_ee_pinv*v is the unique minimiser over x of |J_ee x - v|^2 + 0.02 |x|^2.", "quantifier": "every chain, every posture (singular or not), every twist v and competitor x", "why_tests_cant": "optimality against all competitors; singular postures have measure zero", "anchors": ["src/thunder/src/kinematics.cpp:compute_kin_adv"]}
{"id": "C09", "title": "Centre-of-mass Jacobians", "statement": "The linear rows of J_cm_i times dq are the velocity of the centre of mass of link i (the point at the CoM offset of par_DYN in frame i), and its angular rows equal those of J_i.", "quantifier": "every chain, posture, trajectory and CoM", "why_tests_cant": "derivatives along all trajectories", "anchors": ["src/thunder/src/dynamics.cpp:DHJacCM"]}
{"id": "C10", "title": "Mass matrix is symmetric", "statement": "M(q) is symmetric.", "quantifier": "every chain, posture and (even unphysical) inertial parameters", "why_tests_cant": "all reals", "anchors": ["src/thunder/src/dynamics.cpp:compute_MCG"]}
{"id": "C11", "title": "Mass matrix is the kinetic energy metric", "statement": "1/2 dq^T M(q) dq equals the sum over links of 1/2 m |velocity of CoM|^2 + 1/2 w^T (R I R^T) w with the true velocities of the motion.", "quantifier": "every chain, trajectory and inertial parameters", "why_tests_cant": "all motions", "anchors": ["src/thunder/src/dynamics.cpp:compute_MCG", "src/thunder/src/dynamics.cpp:createInertialParameters"]}
{"id": "C12", "title": "Mass matrix is positive (semi)definite", "statement": "With non-negative masses and positive semidefinite link inertias M(q) is positive semidefinite; with positive masses and positive definite inertias it is positive definite, hence invertible, at every posture.", "quantifier": "every chain, posture and physical parameters, every non-zero dq", "why_tests_cant": "quantifies over all vectors and postures", "anchors": ["src/thunder/src/dynamics.cpp:compute_MCG"]}
{"id": "C13", "title": "Coriolis matrix is the Christoffel one", "statement": "C(q,dq) has entries sum_k 1/2 (dM_ij/dq_k + dM_ik/dq_j - dM_jk/dq_i) dq_k, and the separately computed C_std returns the same matrix.", "quantifier": "every chain, posture, rate and inertial parameters", "why_tests_cant": "two different algorithms must agree on all inputs", "anchors": ["src/thunder/src/dynamics.cpp:stdCmatrix", "src/thunder/src/dynamics.cpp:stdCmatrix_classic", "src/thunder/src/dynamics.cpp:dq_select"]}
{"id": "C14", "title": "M_dot - 2C is skew symmetric", "statement": "x^T (M_dot - 2C) x = 0 for every x.", "quantifier": "every chain, posture, rate, parameters, every x", "why_tests_cant": "all reals", "anchors": ["src/thunder/src/dynamics.cpp:stdCmatrix", "src/thunder/src/dynamics.cpp:compute_dyn_derivatives"]}
{"id": "C15", "title": "Gravity vector is the gradient of potential energy", "statement": "G(q) is the gradient in q of U(q) = - sum_i m_i g . (CoM position of link i).", "quantifier": "every chain, gravity vector (any direction), posture and inertial parameters", "why_tests_cant": "gradients over a continuum", "anchors": ["src/thunder/src/dynamics.cpp:compute_MCG"]}
{"id": "C16", "title": "Equations of motion and power balance", "statement": "M ddq + C dq + G equals d/dt dL/d(dq) - dL/dq for L = kinetic - potential energy; hence d/dt (kinetic + potential) = dq^T (M ddq + C dq + G) along any motion.", "quantifier": "every chain and every twice differentiable motion", "why_tests_cant": "statement about all motions", "anchors": ["src/thunder/src/dynamics.cpp:compute_MCG"]}
{"id": "C17", "title": "Derivatives of the dynamics functions", "statement": "M_dot, M_ddot, C_dot, C_ddot, G_dot, G_ddot are the true first/second time derivatives of M, C, G along any motion with the corresponding derivatives of q.", "quantifier": "every chain and sufficiently smooth trajectory", "why_tests_cant": "derivatives along all trajectories", "anchors": ["src/thunder/src/dynamics.cpp:compute_dyn_derivatives"]}
{"id": "C18", "title": "Regressor identity", "statement": "Yr(q,dq,dqr,ddqr) * par_REG = M(q) ddqr + C(q,dq) dqr + G(q) whenever par_REG and par_DYN describe the same links.", "quantifier": "every chain, posture, rates, reference rates, gravity and inertial parameters", "why_tests_cant": "the repo's own test checks one robot at one random point", "anchors": ["src/thunder/src/regressors.cpp:compute_Yr", "src/thunder/src/robot.cpp:update_inertial_REG"]}
{"id": "C19", "title": "Partial regressors", "statement": "reg_M*par_REG = M ddqr, reg_C*par_REG = C dqr, reg_G*par_REG = G, and Yr = reg_M + reg_C + reg_G.", "quantifier": "as C18", "why_tests_cant": "as C18", "anchors": ["src/thunder/src/regressors.cpp:compute_Yr"]}
{"id": "C20", "title": "Regressors do not depend on the inertial parameters", "statement": "Yr, reg_M, reg_C, reg_G return the same matrix whatever the dynamic parameters are.", "quantifier": "every pair of inertial parameter vectors", "why_tests_cant": "all pairs", "anchors": ["src/thunder/src/regressors.cpp:compute_Yr"]}
{"id": "C21", "title": "DYN and REG parameters convert back and forth", "statement": "Converting par_DYN to par_REG and back is the identity when masses are non-zero (and REG to DYN to REG too); the REG values are mass, mass*CoM and the inertia about the link frame origin. The Robot class and the generated class compute the same conversion.", "quantifier": "every number of links and every parameter vector with non-zero masses", "why_tests_cant": "all reals; two separate implementations must agree", "anchors": ["src/thunder/src/robot.cpp:update_inertial_DYN", "src/thunder/src/robot.cpp:update_inertial_REG", "src/thunder/thunder_robot_template/thunder_robot.cpp:update_inertial_DYN", "src/thunder/thunder_robot_template/thunder_robot.cpp:update_inertial_REG"]}
{"id": "C22", "title": "Friction is odd and dissipative", "statement": "dl (and d, dm) is odd in the velocity and, for non-negative coefficients, never injects power (dq . dl >= 0).", "quantifier": "every order, coefficients, velocities", "why_tests_cant": "all orders and reals", "anchors": ["src/thunder/src/dynamics.cpp:compute_Dl", "src/thunder/src/dynamics.cpp:compute_elastic"]}
{"id": "C23", "title": "Friction and elastic regressors", "statement": "reg_dl * (symbolic par_Dl) plus the value of dl with those parameters zero equals dl; the same for reg_k, reg_d, reg_dm; reg_Mm*(symbolic par_Mm) likewise for Mm*ddx.", "quantifier": "every order, flags, state", "why_tests_cant": "all orders, flags and reals", "anchors": ["src/thunder/src/regressors.cpp:compute_reg_Dl", "src/thunder/src/regressors.cpp:compute_reg_elastic"]}
{"id": "C24", "title": "Elastic coupling acts on the elastic joint", "statement": "The i-th entry of k (and d) depends on the motor position x_i and on the position of the i-th elastic joint.", "quantifier": "every placement of SEA joints in the chain", "why_tests_cant": "combinatorially many placements", "anchors": ["src/thunder/src/dynamics.cpp:compute_elastic"]}
{"id": "C25", "title": "Kinematic regressors", "statement": "reg_Jdq (reg_JTw) has as columns the partial derivatives of J_ee dq (J_ee^T w) with respect to the symbolic kinematic parameters, in the order DH table, world frame, tool frame; as a 'regressor' one would expect reg_Jdq * par = J_ee dq.", "quantifier": "every chain, flags, state", "why_tests_cant": "all reals", "anchors": ["src/thunder/src/regressors.cpp:compute_reg_J"]}
{"id": "C26", "title": "Generated functions are closed", "statement": "Every published function depends only on its declared inputs: changing any other argument or parameter does not change its value and it has no undeclared free symbol.", "quantifier": "every published function of every valid configuration with every choice of flags, every pair of states", "why_tests_cant": "all functions, flags and states", "anchors": ["src/thunder/src/robot.cpp:add_function", "src/thunder/src/robot.cpp:obtain_symb_parameters"]}
{"id": "C27", "title": "Symbolic selectivity does not change values", "statement": "For the same numeric parameters every published function returns the same value whichever parameters are declared symbolic.", "quantifier": "every valid configuration and every two choices of symbolic flags", "why_tests_cant": "2^(number of parameters) choices", "anchors": ["src/thunder/src/robot.cpp:subs_symb_par", "src/thunder/src/robot.cpp:update_symb_parameters", "src/thunder/src/robot.cpp:obtain_symb_parameters"]}
{"id": "C28", "title": "No dimension error, declared sizes", "statement": "For every well-formed configuration (its name included: letters, digits and single inner underscores, first a letter) construction succeeds without dimension errors, and every published function returns a matrix of the documented size. A robot with any other name is never built.", "quantifier": "every well-formed configuration", "why_tests_cant": "all sizes", "anchors": ["src/thunder/src/kinematics.cpp", "src/thunder/src/dynamics.cpp", "src/thunder/src/regressors.cpp", "src/thunder/src/robot.cpp:get_functions"]}
{"id": "C29", "title": "Robot setters", "statement": "A setter accepts exactly vectors of the declared length, then get_arg returns the vector and no other argument changes; otherwise it returns 0 and changes nothing observable.", "quantifier": "every history of setter calls with vectors of every length", "why_tests_cant": "all histories", "anchors": ["src/thunder/src/robot.cpp:set_q", "src/thunder/src/robot.cpp:set_dq", "src/thunder/src/robot.cpp:set_x", "src/thunder/src/robot.cpp:set_par_DYN", "src/thunder/src/robot.cpp:get_arg"]}
{"id": "C30", "title": "DYN and REG parameters stay in sync", "statement": "After set_par_DYN (set_par_REG) the other representation describes the same links.", "quantifier": "every history of setter calls", "why_tests_cant": "all histories", "anchors": ["src/thunder/src/robot.cpp:set_par_DYN", "src/thunder/src/robot.cpp:set_par_REG", "src/thunder/thunder_robot_template/thunder_robot.cpp:set_par_DYN", "src/thunder/thunder_robot_template/thunder_robot.cpp:set_par_REG"]}
{"id": "C31", "title": "get on the published and unpublished names", "statement": "get(name) evaluates the published function at the current arguments; on an unknown name it returns a 1x1 zero matrix and changes nothing.", "quantifier": "every name, every state", "why_tests_cant": "all strings", "anchors": ["src/thunder/src/robot.cpp:get", "src/thunder/src/robot.cpp:get_functions"]}
{"id": "C32", "title": "save_par / load_par round trip", "statement": "Loading a file written by save_par restores exactly the saved arguments and leaves all others unchanged.", "quantifier": "every list of names, every state", "why_tests_cant": "all states", "anchors": ["src/thunder/src/robot.cpp:save_par", "src/thunder/src/robot.cpp:load_par"]}
{"id": "C33", "title": "save_par_REG / load_par_REG round trip (Robot)", "statement": "A file written by save_par_REG, read by load_par_REG, restores par_REG.", "quantifier": "every parameter vector", "why_tests_cant": "all reals", "anchors": ["src/thunder/src/robot.cpp:save_par_REG", "src/thunder/src/robot.cpp:load_par_REG"]}
{"id": "C34", "title": "Configuration parsing is total and safe", "statement": "Parsing any configuration either succeeds, reports failure, or raises the documented error; it never writes outside its buffers; number of elastic joints equals the number of SEA joints; absent options take documented defaults.", "quantifier": "every YAML tree", "why_tests_cant": "all inputs", "anchors": ["src/thunder/src/robot.cpp:parse_config"]}
{"id": "C35", "title": "Symbolic compaction", "statement": "After construction the argument of every parameter holds exactly its symbolic elements in order, the k-th input element of a published function being the k-th flagged parameter.", "quantifier": "every flag vector", "why_tests_cant": "2^n flag vectors", "anchors": ["src/thunder/src/robot.cpp:update_symb_parameters", "src/thunder/src/robot.cpp:add_function"]}
{"id": "C36", "title": "add_function overwrite semantics", "statement": "With overwrite=false an existing name is left untouched and 0 is returned; otherwise exactly that name is (re)defined and 1 is returned.", "quantifier": "every state and name", "why_tests_cant": "all histories", "anchors": ["src/thunder/src/robot.cpp:add_function"]}
{"id": "C37", "title": "Text substitution", "statement": "replace_all(s, from, to) replaces every non-overlapping occurrence of from, left to right, once, and never rescans inserted text; it terminates for non-empty from.", "quantifier": "every three strings", "why_tests_cant": "all strings", "anchors": ["src/thunder/src/utils.cpp:replace_all"]}
{"id": "C38", "title": "Generated getters", "statement": "Each generated getter passes the stored arguments in the declared order, and its output buffer has exactly rows*cols doubles.", "quantifier": "every list of published functions", "why_tests_cant": "all configurations", "anchors": ["src/thunder/src/utils.cpp:change_to_robot", "src/thunder/src/utils.cpp:get_ret_type"]}
{"id": "C39", "title": "Robot name from the command line", "statement": "For a path dir/name.yaml without --name the robot is called name; non-.yaml paths are rejected.", "quantifier": "every path string", "why_tests_cant": "all strings", "anchors": ["src/thunder/thunder_main.cpp:main"]}
{"id": "C40", "title": "Roll-pitch-yaw matrices are rotations", "statement": "rpyRot(rpy) and FrameOffset::get_rotation/get_transform return Rz(yaw) Ry(pitch) Rx(roll), and agree with the frames used by the symbolic kinematics.", "quantifier": "every triple of angles", "why_tests_cant": "continuum of angles; the defect vanishes when yaw or roll is zero, as in all shipped robots", "anchors": ["src/thunder/src/utils.cpp:rpyRot", "src/thunder/src/FrameOffset.cpp:get_rotation", "src/thunder/src/FrameOffset.cpp:get_transform", "src/thunder/thunder_robot_template/thunder_robot.cpp:rpyRot"]}
{"id": "C41", "title": "Merging rigid bodies", "statement": "mergeBodyInertial preserves total mass, first moment and inertia about the frame origin of the two bodies; it is commutative and associative in effect.", "quantifier": "every two bodies with non-zero total mass", "why_tests_cant": "all reals", "anchors": ["src/thunder/src/utils.cpp:mergeBodyInertial"]}
{"id": "C42", "title": "Changing the frame of a body", "statement": "transformBodyInertial keeps the mass, moves the centre of mass rigidly and rotates the central inertia tensor (symmetric, same trace).", "quantifier": "every body and every rotation and displacement", "why_tests_cant": "all reals", "anchors": ["src/thunder/src/utils.cpp:transformBodyInertial"]}
{"id": "C43", "title": "Generated class setters", "statement": "Every setter of the generated class stores vectors of the right length and leaves the whole object unchanged otherwise.", "quantifier": "every history of calls", "why_tests_cant": "all histories", "anchors": ["src/thunder/thunder_robot_template/thunder_robot.cpp:set_q", "src/thunder/thunder_robot_template/thunder_robot.cpp:setArguments", "src/thunder/thunder_robot_template/thunder_robot.cpp:set_par_K"]}
{"id": "C44", "title": "Generated class save/load of inertial parameters", "statement": "save_par_REG then load_par_REG, and save_par_DYN then load_conf, restore the inertial parameters.", "quantifier": "every parameter vector", "why_tests_cant": "all reals", "anchors": ["src/thunder/thunder_robot_template/thunder_robot.cpp:save_par_REG", "src/thunder/thunder_robot_template/thunder_robot.cpp:load_par_REG", "src/thunder/thunder_robot_template/thunder_robot.cpp:save_par_DYN", "src/thunder/thunder_robot_template/thunder_robot.cpp:load_conf"]}
{"id": "C45", "title": "Generated class agrees with the symbolic model under selectivity", "statement": "After load_conf of the configuration used for generation, the generated getters return the same values as the symbolic model.", "quantifier": "every configuration and flag vector", "why_tests_cant": "2^n flag vectors", "anchors": ["src/thunder/thunder_robot_template/thunder_robot.cpp:load_conf", "src/thunder/src/utils.cpp:change_to_robot"]}
{"id": "C46", "title": "Construction from a file is deterministic in the function names", "statement": "The set of published names is exactly the documented one: T_i, T_0_i, T_0_ee, J_i, J_ee, J_ee_dot/ddot/pinv, J_cm_i, M, C, C_std, G and derivatives, Yr, reg_M/C/G, and the optional friction, elastic and kinematic regressors iff enabled.", "quantifier": "every valid configuration", "why_tests_cant": "all sizes and flags", "anchors": ["src/thunder/src/kinematics.cpp", "src/thunder/src/dynamics.cpp", "src/thunder/src/regressors.cpp"]}
{"id": "C47", "title": "User functions on a built robot", "statement": "A function added under an identifier as name with add_function to a built robot over named arguments is accepted and get returns the value of its expression at the current arguments.", "quantifier": "every valid configuration, every expression over the named arguments, every state", "why_tests_cant": "expressions, flags and states are unbounded", "anchors": ["src/thunder/src/robot.cpp:add_function", "src/thunder/src/robot.cpp:get", "src/thunder/src/robot.cpp:update_symb_parameters"]}
{"id": "C48", "title": "Published coefficient matrices rebuild the friction and elastic laws", "statement": "Each published coefficient matrix Dl<o>, D<o>, Dm<o> (o = 1..order) and K<2o-1> is square of the number of joints (elastic joints), and summing matrix times |v|^(o-1) v (deflection to the power 2o-1 for K) over the orders gives dl, d, dm and k.", "quantifier": "every order, coefficients, flags, state", "why_tests_cant": "holds for all orders, coefficient values and velocities", "anchors": ["src/thunder/src/dynamics.cpp: compute_Dl, compute_elastic", "robot.get"]}
{"id": "C49", "title": "Regressor parameters saved by the robot class are read back by the generated class", "statement": "The file written by Robot::save_par_REG, loaded with load_par_REG of the class generated for that robot, restores par_REG exactly, changes no other member than the two inertial vectors, and with update_DYN leaves both descriptions in agreement.", "quantifier": "every robot, every parameter vector, every reachable object of the generated class", "why_tests_cant": "all sizes and reals, all prior histories of the receiving object", "anchors": ["src/thunder/src/robot.cpp:save_par_REG", "src/thunder/thunder_robot_template/thunder_robot.cpp:load_par_REG"]}
{"id": "C50", "title": "A loaded robot holds the numbers and flags of its configuration file", "statement": "When a configuration loads, the DH table, the base and end-effector frames, gravity and the symbolic flags of each section are the entries of the file; the i-th link's ten inertial numbers, its friction coefficients and their flags stand at positions 10i.. and order*i.. of their vectors, and the i-th elastic joint's coefficients, motor inertia and flags at positions order*i.. and i; joints without a link in the file get zeros. Values of a link (elastic joint) are claimed when that link and the preceding ones can be read.", "quantifier": "every YAML tree that loads", "why_tests_cant": "all file contents, orders, numbers of links and optional sections", "anchors": ["src/thunder/src/robot.cpp:parse_config, load_conf_par", "robot_from_file"]}
{"id": "C51", "title": "An unreadable configuration entry is never replaced by another number", "statement": "If an entry that should hold numbers is missing or cannot be read, no robot is returned (rather than a robot with other numbers).", "quantifier": "every YAML tree", "why_tests_cant": "all ways in which an entry can be malformed", "anchors": ["src/thunder/src/robot.cpp:parse_config, load_conf_par", "robot_from_file"]}
{"id": "C52", "title": "The frame class returns what it was given and refuses vectors of another size", "statement": "A FrameOffset is constructed exactly from vectors of three elements (otherwise an exception), its getters return the angles, translation and gravity given last, get_transform is the matrix [rotation translation; 0 1], hat(u) v is the cross product, and no sequence of calls makes a getter read outside its vectors.", "quantifier": "every vector of every length, every sequence of setter calls", "why_tests_cant": "all lengths, reals and histories", "anchors": ["src/thunder/src/FrameOffset.cpp", "src/thunder/library/FrameOffset.h"]}
{"id": "C53", "title": "The dynamics of the last joints do not depend on what they are mounted on", "statement": "For two robots (or one robot in two situations) whose last k joints have the same kinds, the same inertial parameters and, after the first of them, the same Denavit-Hartenberg rows and joint positions: the blocks of M for these joints returned by get are equal whatever the base frame, the earlier joints, the placement and position of the first common joint, the tool and gravity. With the earlier joints at rest the same holds of C, C_std and M_dot, and, if gravity has the same direction in the axes of the first common link, of G and of the torques M ddq + C dq + G. In particular M and C do not depend on par_world2L0, par_gravity, par_Ln2EE or the position of joint 1.", "quantifier": "all pairs of accepted configurations with exact angles, all numbers of earlier joints, all states and parameter values meeting the stated relation", "why_tests_cant": "a relational claim over two robots with a continuum of states and arbitrary numbers of joints; tests can only compare a few numeric pairs", "anchors": ["src/thunder/src/dynamics.cpp: compute_MCG", "src/thunder/src/kinematics.cpp: compute_chain, compute_jacobians"]}
{"id": "C54", "title": "Frames and Jacobians depend only on the joints up to them", "statement": "get(\"T_0_i\"), the first columns of get(\"J_i\") and of get(\"J_cm_i\") are the same for two robots that agree on the base frame and the first m >= i joints, whatever follows; and the columns of J_i and J_cm_i of joints after link i are zero.", "quantifier": "all pairs of accepted configurations with exact angles agreeing on the first m joints, all m, i, states and parameter values", "why_tests_cant": "quantifies over every continuation of the robot and every state", "anchors": ["src/thunder/src/kinematics.cpp: compute_chain, compute_jacobians", "src/thunder/src/dynamics.cpp: DHJacCM"]}
{"id": "C55", "title": "G is linear in gravity", "statement": "If the gravity vector of a robot is u times that of a second and v times that of a third, posture and inertial parameters being the same, get(\"G\") is the same combination of their G; with zero gravity G is zero.", "quantifier": "all accepted configurations with exact angles, all states, parameters, and factors u, v", "why_tests_cant": "a linearity claim over all real factors, gravity vectors and states", "anchors": ["src/thunder/src/dynamics.cpp: compute_MCG"]}
{"id": "C56", "title": "M and G agree with the published Jacobians of the centres of mass", "statement": "At every state, get(\"M\") equals the sum over the links of m Jv'Jv + (A'Jw)' I (A'Jw) and get(\"G\") equals minus the sum of m Jv' g, where Jv, Jw are the two halves of get(\"J_cm_l\"), A is the rotation of get(\"T_0_l\") and m, I, g are the current parameters.", "quantifier": "all accepted configurations, all states and parameter values, without any assumption on the angles", "why_tests_cant": "an identity between separately published functions at every state and for every robot", "anchors": ["src/thunder/src/dynamics.cpp: compute_MCG, DHJacCM"]}
{"id": "C57", "title": "genInertial_files writes the links of the configuration in both forms", "statement": "For every configuration the robot class accepts, genInertial_files returns success and writes one file with the ten inertial numbers of each link and one with mass, first moment and inertia about the frame origin of the same link, links in the order and under the names of the configuration; running it on its own output changes nothing; load_par_REG of the generated class then holds exactly the par_REG of the robot loaded from that configuration; it never accesses memory out of range.", "quantifier": "all configurations, numbers of joints, link names and inertial numbers", "why_tests_cant": "all YAML trees and all real parameter values", "anchors": ["src/thunder/src/genYaml.cpp: genInertial_files, fillInertialYaml", "src/thunder/thunder_robot_template/thunder_robot.cpp: load_par_REG"]}
{"id": "C58", "title": "The URDF converter describes the same bodies in Denavit-Hartenberg frames", "statement": "For every inertial.yaml with the links of the arm, link i of the files written by the genYAML program is the body of entry i+1 seen from its Denavit-Hartenberg frame (with the gripper, link 7 and the hand united); the regressor file without suffix describes the same links; the files can be loaded by the generated class.", "quantifier": "all input files, masses, positions, orientations, inertia tensors and random draws", "why_tests_cant": "all real body parameters, all malformed files", "anchors": ["src/genYAML/main_YAML.cpp: main, perturbateLinkProp, fillInertialYaml", "src/genYAML/src/urdf2dh_inertial.cpp"]}
{"id": "C59", "title": "Parameters saved by the generated class can be loaded by the robot class", "statement": "The file written by save_par of a generated class holds each of its parameter vectors, and load_par of the robot it was generated from restores them exactly.", "quantifier": "all parameter values, all objects reached by any calls, all selections of parameters", "why_tests_cant": "all parameter values and all selections", "anchors": ["src/thunder/thunder_robot_template/thunder_robot.cpp: save_par", "src/thunder/src/robot.cpp: load_par"]}
{"id": "C60", "title": "A run of the generator writes everything or nothing, in its own directory only", "statement": "For every consistent configuration on a machine where thunder is installed, `thunder gen` writes the generated functions, the class header and source, the configuration as read and the regressor parameters (with -p the build file, with -f the saved functions, with -c identical copies in both packages); a refused configuration changes no file; no run touches a file outside the output directory and the copies; the written parameter files can be loaded by the written class, which then answers like the robot; the exit status tells success from failure.", "quantifier": "all configurations, options, directories and file systems", "why_tests_cant": "all configurations, names and previous contents of the file system, including missing templates", "anchors": ["src/thunder/thunder_main.cpp: main, copy_to", "src/thunder/src/robot.cpp: generate_library, save_conf, save_par_REG", "src/thunder/src/utils.cpp: change_to_robot, add_bindings_template, update_cmake"]}
{"id": "C61", "title": "The generated texts are the template with the robot filled in", "statement": "The generated header declares the class under the robot's name with its number of joints, orders and elastic flags and one getter per published function; the source defines exactly these getters around a text that depends on the name only; the python module and the build file bind the same names; each getter calls a function that exists in the generated C source with matching inputs and size.", "quantifier": "all robot names that are identifiers, all robots, all descriptions without '#'", "why_tests_cant": "all names, including names that contain the words being replaced", "anchors": ["src/thunder/src/utils.cpp: change_to_robot, add_bindings_template, update_cmake, replace_all", "src/thunder/thunder_robot_template"]}
{"id": "C62", "title": "Generated getters do not clash", "statement": "The names of the generated getters are pairwise different and none of them is the name of a member that the class has by itself.", "quantifier": "all accepted configurations, any number of joints", "why_tests_cant": "any number of joints, all optional parts", "anchors": ["src/thunder/thunder_robot_template/thunder_robot.h", "src/thunder/src/utils.cpp: change_to_robot"]}
{"id": "C63", "title": "Whole turns of revolute joints cannot be seen", "statement": "Adding whole turns (multiples of 2 pi) to the positions of revolute joints does not change the value of any published function, except the elastic force k and its regressor.", "quantifier": "all robots, all joint positions, any number of turns per joint, every published function", "why_tests_cant": "all robots, positions and numbers of turns; the functions include derivatives of products of rotations", "anchors": ["src/thunder/src/kinematics.cpp: compute_chain, compute_jacobians", "src/thunder/src/dynamics.cpp", "src/thunder/src/regressors.cpp"]}
{"id": "C64", "title": "The Coriolis matrix is bilinear", "statement": "At fixed positions C is linear in the joint velocities, and C(q,u) v = C(q,v) u for any two velocity vectors.", "quantifier": "all robots, all positions, all pairs of velocity vectors and scalars", "why_tests_cant": "identity between expressions for all robots and states", "anchors": ["src/thunder/src/dynamics.cpp: compute_MCG"]}
{"id": "C65", "title": "A killed generator run is repaired by the next one", "statement": "However often and at whatever point 'thunder gen' was killed, a run that is left alone ends with the same status and leaves every file as if no run had been killed. A second run changes nothing.", "quantifier": "all configurations, options, machines and previous files; every kill point, also in the middle of writing a file; any number of killed runs", "why_tests_cant": "all crash points and all histories of killed runs", "anchors": ["src/thunder/thunder_main.cpp: main, copy_to", "src/thunder/src/robot.cpp: generate_library, save_conf, save_par_REG", "src/thunder/src/utils.cpp: change_to_robot, add_bindings_template, update_cmake"]}
{"id": "C66", "title": "A killed generator run leaves the old or the new output", "statement": "A run of 'thunder gen' that is killed leaves either the files that were there before or the complete new ones, and touches no other file; _par_REG.yaml appears only when all other files are complete.", "quantifier": "all configurations and machines, every kill point", "why_tests_cant": "all crash points", "anchors": ["src/thunder/thunder_main.cpp: main, copy_to", "src/thunder/src/robot.cpp: generate_library, save_conf, save_par_REG"]}
{"id": "C67", "title": "Getters can be used from several threads", "statement": "Threads that use the generated class, each with an object of its own or with a shared object that no thread modifies, receive from every getter, in order, the matrices they would receive if they ran alone; a thread that keeps being scheduled receives all of them.", "quantifier": "all configurations, any number of threads and objects, all programs of getter and method calls, every interleaving of their steps, any previous content of the static buffers", "why_tests_cant": "all schedules", "anchors": ["src/thunder/src/utils.cpp: change_to_robot (body of the generated getters)", "src/thunder/thunder_robot_template/thunder_robot.cpp"]}
{"id": "C68", "title": "Getters read only the object's own memory", "statement": "Whatever methods were called before, a getter of the generated class reads only elements that the parameter and state vectors of the object hold and returns a matrix of the declared size.", "quantifier": "all configurations, all histories of method calls, all files loaded", "why_tests_cant": "all histories and files", "anchors": ["src/thunder/src/utils.cpp: change_to_robot", "src/thunder/thunder_robot_template/thunder_robot.cpp: load_conf, setters"]}
{"id": "C69", "title": "Controllers written with the published functions work as the theory promises", "statement": "Computed torque: the arm accelerates as commanded exactly when its torques are M v + C dq + G. Position control with gravity compensation: kinetic plus spring energy is lost at the rate dq'Kd dq. Adaptive control with torques Yr est - Kd (dq - dqr) and estimates moving against Yr'(dq - dqr): the energy of the velocity and parameter errors is lost at the rate of the damping, whatever the true parameters, so the velocity error stays within what the energy at the start allows.", "quantifier": "all configurations, motions, gains, parameter values and estimates, all time intervals", "why_tests_cant": "all motions, all gains, all parameters; a rate of change along every trajectory", "anchors": ["src/thunder/src/dynamics.cpp: compute_MCG", "src/thunder/src/regressors.cpp: compute_Yr", "src/thunder/src/robot.cpp: Robot::get, Robot::set_arg"]}
{"id": "C70", "title": "The order of the entries of a configuration file does not matter", "statement": "Two configuration files with the same entries under the same names, in any order and among entries the library does not know, give the same robot, and the same state of an object of the generated class that loads them.", "quantifier": "all configuration files, all orders of their entries at every depth, all additional entries, all objects", "why_tests_cant": "all files and all orders", "anchors": ["src/thunder/src/robot.cpp: Robot::parse_config, Robot::load_conf_par, robot_from_file", "src/thunder/thunder_robot_template/thunder_robot.cpp: load_conf"]}
{"id": "C71", "title": "Loading the configuration again restores the robot", "statement": "A robot built from a configuration can load that configuration again at any time: its inertial, friction and elastic parameters take the values of the file, in both inertial descriptions, every other argument keeps its value, and every function can still be evaluated; if only those parameters had been changed, every function returns what it returned right after construction.", "quantifier": "all configurations, all robots built from them, all later contents of their argument vectors", "why_tests_cant": "all configurations, all choices of symbolic parameters and all states of the robot", "anchors": ["src/thunder/src/robot.cpp: Robot::load_conf_par, Robot::get, Robot::update_symb_parameters, robot_from_file", "src/thunder/library/robot.h: Robot::load_conf_par"]}
{"id": "C72", "title": "Generator runs at the same time do not disturb each other", "statement": "Any number of `thunder gen` commands may run at the same time: however the operating system interleaves them, and whichever of them are killed, every command that ends does so with the status it has when it runs alone and leaves in its output directory the files it leaves when it runs alone, files that are no command's output stay as they were, and no command waits for another.", "quantifier": "any number of commands with any configurations and options, all interleavings of their file operations including files seen half written, all contents of the disk before", "why_tests_cant": "schedules cannot be enumerated or forced by tests", "anchors": ["src/thunder/thunder_main.cpp: main", "src/thunder/src/robot.cpp: Robot::generate_library", "src/thunder/src/utils.cpp: change_to_robot"]}
{"id": "C73", "title": "Forward dynamics is well defined", "statement": "For a robot with physical inertial parameters, whatever torques act on the joints there is exactly one vector of accelerations for which M ddq + C dq + G, read from the getters, gives those torques; and the acceleration that an additional force and moment on the tool causes, found by solving M x = J_ee^T f, never points against them and points along them if any joint feels them.", "quantifier": "every accepted configuration, every state, all torques, all wrenches on the tool, any number of joints", "why_tests_cant": "solvability and uniqueness must hold at every configuration and velocity of every robot; tests sample some", "anchors": ["src/thunder/src/dynamics.cpp: compute_MCG", "src/thunder/src/kinematics.cpp: compute_jacobians", "src/thunder/src/robot.cpp: Robot::get"]}
{"id": "C74", "title": "A payload adds its own dynamics", "statement": "When bodies are fixed to links of a robot and the parameters of those links are those of the merged bodies, the mass matrix, Coriolis matrix, gravity vector and torques of the loaded robot are, in every state, the sums of those of the bare robot and those of a robot of the same geometry that carries only the added bodies.", "quantifier": "every pair of inertial parameter sets, including massless links, every geometry and state, any number of joints", "why_tests_cant": "an identity in all parameters and states; tests sample some", "anchors": ["src/thunder/src/utils.cpp: mergeBodyInertial", "src/genYAML/src/urdf2dh_inertial.cpp: mergeBodyInertial", "src/thunder/src/dynamics.cpp: compute_MCG", "src/thunder/src/robot.cpp: Robot::set"]}
{"id": "C75", "title": "Every published function is defined everywhere and continuous", "statement": "Every entry of every function get_functions reports has a value for all real inputs: its formula contains no division by zero and no square root of a negative number, also at rest, in singular configurations and for any parameters. If the arguments of a function are changed by little enough its answer changes by less than any given amount.", "quantifier": "every configuration that builds, every published function and entry, all numbers in place of its inputs, every pair of objects of the robot", "why_tests_cant": "tests sample finitely many inputs; singular points (zero speed, singular Jacobian) form thin sets that random inputs miss", "anchors": ["src/thunder/src/kinematics.cpp: compute_jacobians", "src/thunder/src/dynamics.cpp: compute_Dl", "src/thunder/src/regressors.cpp: compute_reg_Dl", "src/thunder/src/robot.cpp: Robot::get"]}
{"id": "C76", "title": "The model is bounded in every posture", "statement": "While parameters, velocities and the positions of prismatic joints stay within any limit, every published function except the spring force and its regressor stays within some bound, however far the revolute joints turn. The entries of the Coriolis matrix are at most a constant times the joint speed. If the masses carried by prismatic joints and the inertias carried by revolute joints are at least some positive number, the mass matrix is at least a positive multiple of the identity, the same multiple in every posture. The damped pseudo-inverse never lengthens a tool velocity by more than 1/(2 sqrt 0.02), whatever the parameters and the posture.", "quantifier": "every configuration that builds, every published function, every limit, all states and parameter values within the limit", "why_tests_cant": "the bounds hold for an unbounded set of postures and all parameters; sampling gives no bound", "anchors": ["src/thunder/src/dynamics.cpp: compute_MCG", "src/thunder/src/kinematics.cpp: compute_kin_adv", "src/thunder/src/kinematics.cpp: compute_jacobians", "src/thunder/src/robot.cpp: Robot::get"]}
{"id": "C77", "title": "An elastic robot gains no energy from its springs and friction", "statement": "For a robot whose elastic joints come first in the chain, take the links, springs and motors together, with the links moved by M, C and G, the springs by k, the coupling damping by d, the frictions by dl and dm, and the motors by Mm. In every motion the energy of links, springs and motors changes at the rate of the power supplied by the torques on joints and motors minus the power lost in d, dl and dm. The spring torque k is the slope of a spring energy. With coefficients that are not negative the lost power, the spring energy and the motor energy are never negative, so over any time the energy grows at most by the work supplied from outside.", "quantifier": "every elastic configuration that builds with its elastic joints first, all orders of the laws, all parameter values, all motions, all torques, all time intervals", "why_tests_cant": "the balance holds along every motion and for all coefficients; a simulation shows one motion with rounding", "anchors": ["src/thunder/src/dynamics.cpp: compute_elastic", "src/thunder/src/dynamics.cpp: compute_Dl", "src/thunder/src/dynamics.cpp: compute_MCG", "src/thunder/src/robot.cpp: Robot::get"]}
{"id": "C78", "title": "The shipped test programs confirm the model on every configuration and state", "statement": "Running the library's test program on a configuration terminates normally, prints what the robot answers in the state the program has set and its parameters, and ends with a difference between the torques of the dynamic model and of the regressor that is zero. Running the test program of the generated class with the configuration written beside it prints the same matrices as the robot it was generated from, in the same state, and a zero difference.", "quantifier": "every configuration that builds, all joint positions, velocities, references and motor states (the source fixes ones and zeros and suggests random vectors)", "why_tests_cant": "the programs are the tests: one run looks at one configuration and one state, and its outcome is read by eye", "anchors": ["src/thunder/thunder_test.cpp: main", "src/thunder_robot/thunder_robot_test.cpp: main", "src/thunder/src/robot.cpp: Robot::get_par_DYN", "src/thunder/src/robot.cpp: Robot::set_x"]}
{"id": "C79", "title": "Every robot shipped with the project is one the library handles", "statement": "Each configuration file shipped with the project loads, and gives a robot whose functions are all built and which meets the conditions under which the model's geometry, energy, generated class and test programs are correct. With the inertial parameters of the file its mass matrix is positive semidefinite in every state; for the real arms it is positive definite, so that any torques determine the accelerations. The class generated for it, after loading the same file, answers like the robot.", "quantifier": "every shipped configuration file, every state, every value of the parameters that are not the inertial ones, every sequence of setter calls on the generated class", "why_tests_cant": "a run of a shipped robot looks at one state; the statement is about all states and about every function of the robot", "anchors": ["src/thunder/robots/*/*.yaml", "src/thunder/src/robot.cpp: Robot::parse_config, robot_from_file", "src/thunder/thunder_test.cpp: main", "src/thunder/thunder_robot_template/thunder_robot.cpp:load_conf"]}
{"id": "C80", "title": "Controllers built on the model converge and stay bounded in every posture", "statement": "Take a robot whose geometry and inertia stay within given limits and whose bodies are physical. When the torques are M ddqr + C dqr + G - Kd (dq - dqr), computed from the published functions, the velocity error dies out exponentially: its square is at most A exp(-lam k t) times its initial value, with k the least damping Kd exerts on the error. A and lam depend on the robot and the limits only. With the adaptive law built on Yr the velocity error, and with gravity compensation the speed, stay within a fixed multiple of the energy the controller starts with.", "quantifier": "every configuration that builds, all parameter values within the limits, all motions and references, all durations, all time-varying gains", "why_tests_cant": "a simulation follows one trajectory from one posture; the factor and the rate must serve all postures and all references at once", "anchors": ["src/thunder/src/dynamics.cpp: compute_MCG", "src/thunder/src/regressors.cpp: compute_Yr", "src/thunder/src/robot.cpp: Robot::get"]}
{"id": "C81", "title": "Moderate torques and speeds cause moderate accelerations in every posture", "statement": "For a robot whose geometry, inertia and gravity stay within given limits and whose bodies are physical there is one constant K such that, in every state, each joint acceleration that satisfies the equations of motion written with the published M, C and G is at most K times (1 + the sum of the torques + the square of the sum of the speeds). No posture is singular for the dynamics.", "quantifier": "every configuration that builds, all parameter values within the limits, all joint positions (revolute joints without limit), velocities and torques", "why_tests_cant": "a constant that serves the whole continuum of postures cannot be found by sampling", "anchors": ["src/thunder/src/dynamics.cpp: compute_MCG", "src/thunder/src/robot.cpp: Robot::get"]}
{"id": "C82", "title": "Rounding errors stay of the order of the unit of rounding", "statement": "For every entry of every published function and every limit on its arguments there is a constant K such that, in all states and for all parameter values within the limit, evaluating the formula in floating point never divides by zero or takes the root of a negative number, and the number obtained differs from the exact value by at most K times the unit of rounding. For all functions but the damped pseudo-inverse this holds for every floating point format, however coarse; for the pseudo-inverse, from some precision on. Overflow is excluded.", "quantifier": "every configuration that builds, every published function and entry, all states and parameters within the limit, every rounding of every single operation", "why_tests_cant": "a run shows one sequence of roundings at one input; the bound is about all of them, near singular postures included", "anchors": ["src/thunder/src/robot.cpp: Robot::get, Robot::add_function", "src/thunder/src/kinematics.cpp: compute_jacobians", "src/thunder/src/dynamics.cpp: compute_MCG, compute_Dl"]}
{"id": "C83", "title": "Measurement and calibration errors cause errors of the same order, in every posture", "statement": "For every published function and every limit on its arguments there is one constant K such that two objects of the same robot whose arguments (state and parameters) are within the limit and differ by at most d answer with numbers that differ by at most K d. Except for the force of the springs and its regressor, the positions of revolute joints need not be limited. Computed in floating point with unit u the results differ by at most K (d + u).", "quantifier": "every configuration that builds, every published function and entry, all pairs of states and parameter vectors within the limit, singular postures included", "why_tests_cant": "a constant that serves all pairs of states cannot be found by sampling; it fails to exist if a single formula divides by something that can vanish", "anchors": ["src/thunder/src/robot.cpp: Robot::get, Robot::add_function", "src/thunder/src/kinematics.cpp: compute_chain, compute_jacobians", "src/thunder/src/dynamics.cpp: compute_MCG, compute_elastic, compute_Dl", "src/thunder/src/regressors.cpp"]}
{"id": "C84", "title": "Functions added at the documented place become part of the robot", "statement": "A user who adds their own functions in compute_userDefined with add_function (any names that can be function names and are not names of vectors, any expressions over the vectors handed to the function) gets a robot that publishes exactly these functions in addition: the construction succeeds, all other functions and the initial parameter values are unchanged, and get(name) returns the expression evaluated at the current state and parameters, where published model terms used in the expression stand for their current values. The getter of the generated class returns the same. As shipped, the place is empty and nothing is added.", "quantifier": "every configuration that builds, every list of well-formed user functions, every state and parameter values", "why_tests_cant": "the user's functions, the robot and which parameters are symbolic are all free; symbolic selectivity compacts the parameter vectors after the user's code has run", "anchors": ["src/thunder/src/userDefined.cpp: compute_userDefined", "src/thunder/src/robot.cpp: robot_from_file, Robot::add_function, Robot::update_symb_parameters, Robot::get"]}
{"id": "C85", "title": "The shipped example of a user function returns the distance from q0", "statement": "With the call in compute_userDefined uncommented and a list q0 in the YAML file, the robot and the library generated for it have a function q0_dist that returns the Euclidean distance of q from q0; without q0 the robot is the plain one.", "quantifier": "every configuration that builds, every list q0, every joint position", "why_tests_cant": "ranges over all robots, all lists and all positions; the example is not compiled in, so no test runs it", "anchors": ["src/thunder/src/userDefined.cpp: compute_example_fun", "src/thunder/src/utils.cpp: change_to_robot"]}
{"id": "C86", "title": "The symbolic elements of a parameter can be set at run time", "statement": "If only some elements of a parameter are declared symbolic in the YAML file (symb: [0,0,1]), then calling the parameter's setter in the generated class with one number for each symbolic element replaces exactly these elements: every getter then answers as the robot with these symbolic elements, with the elements that are not symbolic, and all other parameters, as configured.", "quantifier": "every configuration that builds, every parameter, every choice of symbolic elements, every vector of new values, every state set before the call, every published function", "why_tests_cant": "ranges over all robots, all choices of flags and all values; whether a call is taken depends on the length the parameter vector has at that moment, hence on the history of the object", "anchors": ["src/thunder/thunder_robot_template/thunder_robot.cpp: set_par_<par>, load_conf", "src/thunder/src/robot.cpp: update_symb_parameters", "README.md: Symbolic selectivity of parameters"]}
{"id": "C87", "title": "The timing programs report the fastest call", "statement": "The two shipped timing programs terminate normally on every configuration that loads. Whatever times a clock that does not go back shows, they print for each robot and each of the seven functions they call the time the fastest of its repetitions took.", "quantifier": "every list of configurations that load, every sequence of clock readings, every number of repetitions, every state set before", "why_tests_cant": "the times differ from run to run and cannot be chosen by a test; what is printed must follow from the readings whatever they are", "anchors": ["src/thunder/thunder_test_chrono.cpp: main", "src/thunder_robot_chrono/thunder_robot_test_chrono.cpp: main"]}
{"id": "C88", "title": "Loading the configuration again restores the parameters", "statement": "Whatever methods of an object of the generated class were called before (setters, loads of other files, updates), calling load_conf with the file the class was generated from gives all parameters the values of the file and leaves the state (q, dq, ...) as it was. The published functions then answer like the robot of the file in that state.", "quantifier": "every configuration that builds, every history of method calls that return normally, every state, both values of update_REG, every published function", "why_tests_cant": "ranges over all histories: load_conf resizes vectors, keeps flags and only overwrites what the file mentions, so what remains of earlier calls depends on the whole history and on the file", "anchors": ["src/thunder/thunder_robot_template/thunder_robot.cpp: load_conf", "src/thunder/thunder_robot_template/thunder_robot.cpp: set_par_<par>"]}
