{"id": "C01", "title": "Compiled component is never stale", "statement": "Reading component.jax_component (directly or through Problem.compile) returns a JAX component equal to the one that would be built from scratch from the component's current public attributes, whatever sequence of constructor, setter, update_*, model re-binding, jax_component/mask reads and failed (raising) calls came before.", "quantifier": "every component kind, every finite history of API calls including calls that raise", "why_tests_cant": "The cache is controlled by one boolean set in __setattr__; a test samples a few setter/compile interleavings, staleness could show up after any other one.", "anchors": ["mjinx/components/_base.py:Component.__setattr__", "mjinx/components/_base.py:Component.jax_component", "mjinx/components/_base.py:Component._build_component"]}
{"id": "C02", "title": "Reading a compiled component is idempotent and has no visible effect", "statement": "Two consecutive reads of jax_component return the same value; the read changes no public attribute (gain, dim, cost, targets, limits, mask, name, model, ...) and a failing read (model or dimension missing, inconsistent gain/cost) changes none either and leaves the component marked as modified.", "quantifier": "every component state reachable by any history", "why_tests_cant": "The getter mutates the object (cache, lazily created default mask); only a quantified statement excludes a visible effect in some state.", "anchors": ["mjinx/components/_base.py:Component.jax_component", "mjinx/components/_base.py:Component.mask_idxs"]}
{"id": "C03", "title": "jax_component availability", "statement": "jax_component raises ValueError exactly when no model was bound or the dimension is unknown, or when one of the published attributes (vector_gain, matrix_cost, soft_constraint_cost, targets, limits) is itself not available; otherwise it returns a component whose dim, model, vector_gain, mask_idxs equal the public attributes of the same name.", "quantifier": "every component kind and state", "why_tests_cant": "A combination of missing/inconsistent attributes per kind is infinite in gains/costs.", "anchors": ["mjinx/components/_base.py:Component.jax_component", "mjinx/components/_base.py:Component.vector_gain"]}
{"id": "C04", "title": "Gain normalisation", "statement": "vector_gain is the scalar gain repeated dim times, or the 1-D gain itself when its length is dim, and otherwise a ValueError is raised; a gain of rank > 1 is rejected by the setter and then the previously stored gain is kept.", "quantifier": "every gain value of any shape and every dimension", "why_tests_cant": "Shapes and values are unbounded.", "anchors": ["mjinx/components/_base.py:Component.update_gain", "mjinx/components/_base.py:Component.vector_gain"]}
{"id": "C05", "title": "Task cost normalisation", "statement": "matrix_cost is cost*I for scalar cost, diag(cost) for a vector of length dim, the matrix itself when it is dim x dim, and a ValueError in every other case; cost of rank > 2 is rejected by the setter without changing the stored cost. Weighting an error vector by a scalar/vector cost multiplies it entrywise.", "quantifier": "every cost value of any shape, every dimension, every error vector", "why_tests_cant": "Shapes and values are unbounded.", "anchors": ["mjinx/components/tasks/_base.py:Task.update_cost", "mjinx/components/tasks/_base.py:Task.matrix_cost"]}
{"id": "C06", "title": "Soft constraint cost normalisation", "statement": "soft_constraint_cost is 100*I by default, cost*I for a scalar, diag(cost) for a vector of length dim, the dim x dim matrix itself, and a ValueError otherwise.", "quantifier": "every soft cost value of any shape, every dimension", "why_tests_cant": "Shapes and values are unbounded.", "anchors": ["mjinx/components/constraints/_base.py:Constraint.soft_constraint_cost"]}
{"id": "C07", "title": "Mask semantics", "statement": "For an explicit mask, mask_idxs is exactly the strictly increasing sequence of positions with a non-zero mask entry (so its length is the number of non-zero entries); without a mask it is 0..dim-1; a mask of rank other than 1 is rejected; mask_idxs raises iff neither mask nor dimension is known.", "quantifier": "every mask sequence of any length, every dimension", "why_tests_cant": "Masks are arbitrary-length bit patterns.", "anchors": ["mjinx/components/_base.py:Component.__init__", "mjinx/components/_base.py:Component.mask_idxs", "mjinx/components/_base.py:Component._get_default_mask"]}
{"id": "C08", "title": "copy_and_set replaces exactly the named fields", "statement": "copy_and_set(**kw) yields a component of the same class whose named fields have the new values and all other fields are unchanged; successive calls on different fields commute and the last write to one field wins; an unknown field name raises TypeError; the original is not modified.", "quantifier": "every JAX component, every sequence of field updates", "why_tests_cant": "The statement ranges over sequences of updates.", "anchors": ["mjinx/components/_base.py:JaxComponent.copy_and_set"]}
{"id": "C09", "title": "Problem is an insertion-ordered map with unique names", "statement": "After any history of add_component, remove_component, lookups, compile and limit updates, the components of a Problem are exactly those successfully added and not removed since, keyed by name without duplicates and in order of (last) insertion; re-adding an existing name raises ValueError and removing an absent name is a no-op.", "quantifier": "every finite history of operations over any number of components and problems", "why_tests_cant": "Histories are unbounded; tests contain a handful of adds and removes.", "anchors": ["mjinx/problem.py:Problem.add_component", "mjinx/problem.py:Problem.remove_component", "mjinx/problem.py:Problem.component"]}
{"id": "C10", "title": "Failed add leaves the problem unchanged", "statement": "If add_component raises (duplicate name, unknown object name, bad mask or bad target length for the model), the set, order and identity of the problem's components, its velocity limits and its model are unchanged; on a duplicate name the rejected component is not touched either.", "quantifier": "every problem state, every component state, every failure cause", "why_tests_cant": "Failure causes and states are unbounded; partial mutation appears only in some combinations.", "anchors": ["mjinx/problem.py:Problem.add_component"]}
{"id": "C11", "title": "Typed lookup", "statement": "component(name)/task(name)/barrier(name) return the very object added under that name iff it is present and (for task/barrier) is of that family, and raise ValueError otherwise; lookups change nothing.", "quantifier": "every problem state and every name", "why_tests_cant": "Names and states are unbounded.", "anchors": ["mjinx/problem.py:Problem.component", "mjinx/problem.py:Problem.task", "mjinx/problem.py:Problem.barrier"]}
{"id": "C12", "title": "Velocity limits always have length nv", "statement": "For every Problem, at every moment after construction, v_min and v_max are vectors of length nv; a scalar is broadcast, a vector of length nv is stored as is, anything else raises ValueError and leaves both limits as they were; updating one limit never changes the other; a Problem created without limits has -1000 and 1000 for every degree of freedom.", "quantifier": "every model size, every limit value of any shape, every history of updates", "why_tests_cant": "Shapes and update histories are unbounded.", "anchors": ["mjinx/problem.py:Problem.update_v_min", "mjinx/problem.py:Problem.update_v_max"]}
{"id": "C13", "title": "Compile is a faithful snapshot", "statement": "compile() succeeds iff every contained component can build its JAX component, and then returns the problem's model, limits and, under the same names and in the same order, the JAX component of each current component; compile changes no public attribute, so compiling twice gives the same data; any update made between two compiles is visible in the second.", "quantifier": "every problem state and history", "why_tests_cant": "Ranges over all interleavings of updates and compiles.", "anchors": ["mjinx/problem.py:Problem.compile"]}
{"id": "C14", "title": "Sharing a component between problems", "statement": "A component already added to one Problem keeps working there: adding it to a second Problem (even unsuccessfully) must not change what the first Problem compiles.", "quantifier": "every pair of problems/models, every component", "why_tests_cant": "Needs aliasing histories over two problems, never tested.", "anchors": ["mjinx/problem.py:Problem.add_component", "mjinx/components/tasks/_obj_task.py:ObjTask.update_model", "mjinx/components/tasks/_joint_task.py:JointTask.update_model"]}
{"id": "C15", "title": "vmap template keeps structure", "statement": "set_vmap_dimension() yields data with the same component names, order, classes and static fields as compile(), in which every array leaf is None, so that setting one leaf to an axis affects exactly that leaf.", "quantifier": "every problem state", "why_tests_cant": "Ranges over all problems.", "anchors": ["mjinx/problem.py:Problem.set_vmap_dimension"]}
{"id": "C16", "title": "Position and velocity indices of joint components pair up", "statement": "After binding a model, the qpos indices and the dof indices used by JointTask and JointBarrier have the same length (dim resp. dim/2), are strictly increasing, and the i-th of each belong to the same hinge/slide joint; without a user mask they enumerate all hinge/slide joints of the model in order, with a mask exactly the ones selected.", "quantifier": "every joint list (free, ball, hinge, slide in any order and number) and every mask", "why_tests_cant": "Joint layouts and masks are unbounded; tests use one or two fixed models.", "anchors": ["mjinx/components/tasks/_joint_task.py:JointTask.update_model", "mjinx/components/barriers/_joint_barrier.py:JointBarrier.update_model"]}
{"id": "C17", "title": "Joint mask length is validated", "statement": "Binding a model to a JointTask/JointBarrier whose mask length differs from the number of hinge/slide joints raises ValueError, and otherwise the mask is accepted.", "quantifier": "every joint layout, every mask", "why_tests_cant": "Unbounded layouts and masks.", "anchors": ["mjinx/components/tasks/_joint_task.py:JointTask.update_model", "mjinx/components/barriers/_joint_barrier.py:JointBarrier.update_model"]}
{"id": "C18", "title": "Joint task error and Jacobian agree with integration", "statement": "The JointTask value at integrate(q, v, dt) equals its value at q plus dt times Jacobian times v exactly, for all q, v, dt, including robots with free and ball joints.", "quantifier": "every model, mask, target, q, v, dt", "why_tests_cant": "A universally quantified identity over reals and over model layouts.", "anchors": ["mjinx/components/tasks/_joint_task.py:JaxJointTask.__call__", "mjinx/components/tasks/_joint_task.py:JaxJointTask.compute_jacobian", "mjinx/configuration/_model.py:integrate"]}
{"id": "C19", "title": "Joint barrier value and Jacobian agree with integration", "statement": "All JointBarrier values are non-negative iff every selected joint lies in [q_min, q_max]; the barrier at integrate(q, v, dt) equals barrier at q plus dt * Jacobian * v exactly.", "quantifier": "every model, mask, limits, q, v, dt", "why_tests_cant": "A universally quantified identity over reals and over model layouts.", "anchors": ["mjinx/components/barriers/_joint_barrier.py:JaxJointBarrier.__call__", "mjinx/components/barriers/_joint_barrier.py:JaxJointBarrier.compute_jacobian"]}
{"id": "C20", "title": "Joint limits are forward invariant in closed loop", "statement": "If a JointBarrier with scalar or vector gain alpha, default gain_fn and 0 <= alpha*dt <= 1 is part of the problem and each step applies any velocity feasible for the local IK inequality constraints followed by integrate(q, v, dt), then a configuration within the limits stays within the limits for every number of steps (and for 0<alpha*dt<=1 violations decay geometrically).", "quantifier": "every model, problem containing the barrier, initial state, number of steps, feasible velocity sequence", "why_tests_cant": "Infinite-horizon safety statement.", "anchors": ["mjinx/components/barriers/_joint_barrier.py:JaxJointBarrier", "mjinx/solvers/_local_ik.py:LocalIKSolver", "mjinx/configuration/_model.py:integrate"]}
{"id": "C21", "title": "Joint task converges", "statement": "If each step applies a velocity with J v = -gain*error (the unconstrained optimum of a JointTask) then the task error after n integration steps is (1 - gain*dt)^n times the initial error, so it tends to 0 for 0 < gain*dt < 2.", "quantifier": "every model, mask, target, initial state, n", "why_tests_cant": "Infinite-horizon statement over reals.", "anchors": ["mjinx/components/tasks/_joint_task.py:JaxJointTask", "mjinx/solvers/_local_ik.py:LocalIKSolver"]}
{"id": "C22", "title": "Default joint limits come from the model", "statement": "A JointBarrier created without q_min/q_max uses, after binding, the joint ranges of exactly the joints it controls, in order; explicit limits are kept; wrong-length limits are rejected.", "quantifier": "every joint layout, every mask, every limit vectors", "why_tests_cant": "Combination of layout, mask and limits is unbounded; the masked default case is untested.", "anchors": ["mjinx/components/barriers/_joint_barrier.py:JointBarrier.update_model", "mjinx/components/barriers/_joint_barrier.py:JointBarrier.update_q_min", "mjinx/components/barriers/_joint_barrier.py:JointBarrier.update_q_max"]}
{"id": "C23", "title": "Joint target consistency", "statement": "For a JointTask that compiled, target_q has last dimension dim; without an explicit target it is zero; an incompatible target makes the binding raise ValueError; setting an incompatible target after binding raises ValueError and keeps the old target.", "quantifier": "every joint layout, mask, target shape, and order of set-target and bind operations", "why_tests_cant": "All interleavings of binding and target updates.", "anchors": ["mjinx/components/tasks/_joint_task.py:JointTask.update_model", "mjinx/components/tasks/_joint_task.py:JointTask.update_target_q"]}
{"id": "C24", "title": "Component shapes are consistent", "statement": "For every component kind with a valid mask, the value returned by a compiled component has length dim, the Jacobian has dim rows and nv columns, vector_gain has length dim and matrix_cost is dim x dim, so the solver never fails on shapes.", "quantifier": "every component kind, model, mask, target of the accepted shape, configuration", "why_tests_cant": "Ranges over all kinds, masks and models.", "anchors": ["mjinx/components/tasks", "mjinx/components/barriers", "mjinx/components/constraints"]}
{"id": "C25", "title": "Masks of object tasks are validated or harmless", "statement": "A mask of the wrong length for PositionTask, FrameTask or PositionBarrier is either rejected or can never make the component read a coordinate that was not selected.", "quantifier": "every mask length and content", "why_tests_cant": "Out-of-range gathers are clamped silently by JAX, so no exception reveals the problem.", "anchors": ["mjinx/components/tasks/_obj_position_task.py:PositionTask.__init__", "mjinx/components/tasks/_obj_frame_task.py:FrameTask.__init__", "mjinx/components/barriers/_obj_position_barrier.py:PositionBarrier.__init__", "mjinx/components/tasks/_com_task.py:ComTask.__init__"]}
{"id": "C26", "title": "Object components bind to the named object", "statement": "Binding an object task/barrier to a model succeeds iff the model has an object of that type and name; then obj_id is its index and the component reads the pose of that object; otherwise ValueError is raised.", "quantifier": "every model name table, every object type and name", "why_tests_cant": "Name tables are unbounded.", "anchors": ["mjinx/components/tasks/_obj_task.py:ObjTask.update_model", "mjinx/components/barriers/_obj_barrier.py:ObjBarrier.update_model"]}
{"id": "C27", "title": "A failed re-binding does not corrupt an object component", "statement": "If binding an already bound object component to a model without that object raises, the component still refers to the object of its previous model.", "quantifier": "every pair of models, every object component", "why_tests_cant": "Requires a failure after a success and an inspection of the compiled result.", "anchors": ["mjinx/components/tasks/_obj_task.py:ObjTask.update_model", "mjinx/components/barriers/_obj_barrier.py:ObjBarrier.update_model"]}
{"id": "C28", "title": "Position and CoM task error", "statement": "PositionTask/ComTask value is selected coordinates of the object position/robot centre of mass minus target; it is zero iff every selected coordinate equals its target; unselected coordinates have no influence. A target whose last dimension is wrong raises ValueError and keeps the old target.", "quantifier": "every mask, target, configuration", "why_tests_cant": "Universal statement over reals and masks.", "anchors": ["mjinx/components/tasks/_obj_position_task.py", "mjinx/components/tasks/_com_task.py"]}
{"id": "C29", "title": "Position barrier semantics per limit type", "statement": "A PositionBarrier value is entrywise non-negative iff each selected coordinate is >= p_min (type min), <= p_max (type max) or both; its dim is the number of selected axes, doubled for 'both'.", "quantifier": "every mask, limit type, limits, position", "why_tests_cant": "Universal statement over reals and masks.", "anchors": ["mjinx/components/barriers/_obj_position_barrier.py:JaxPositionBarrier.__call__", "mjinx/components/barriers/_obj_position_barrier.py:PositionBarrier.__init__"]}
{"id": "C30", "title": "Position limit updates", "statement": "update_p_min/update_p_max store a broadcast scalar or a vector with one entry per selected axis, raise ValueError for other lengths, and are ignored (with a warning, leaving everything unchanged) when the limit type does not include that side.", "quantifier": "every limit type, mask, value shape, and history of updates", "why_tests_cant": "Shapes and histories unbounded.", "anchors": ["mjinx/components/barriers/_obj_position_barrier.py:PositionBarrier.update_p_min", "mjinx/components/barriers/_obj_position_barrier.py:PositionBarrier.update_p_max"]}
{"id": "C31", "title": "Position limit type parsing", "statement": "from_str accepts exactly the strings that equal min, max or both up to letter case, and returns the corresponding member; includes_min/includes_max hold for exactly min/both and max/both.", "quantifier": "every string", "why_tests_cant": "Strings are unbounded.", "anchors": ["mjinx/typing.py:PositionLimitType"]}
{"id": "C32", "title": "Frame task target conversion", "statement": "A 7-vector target is interpreted as position xyz followed by quaternion wxyz: the stored SE3 has that translation and rotation; any other last dimension raises ValueError and keeps the old target; an SE3 object is stored as is.", "quantifier": "every array shape and content", "why_tests_cant": "Universal over inputs.", "anchors": ["mjinx/components/tasks/_obj_frame_task.py:FrameTask.update_target_frame"]}
{"id": "C33", "title": "Frame task error vanishes exactly at the target", "statement": "The unmasked FrameTask value is zero iff the object's frame equals the target frame, is unchanged when both frames are moved by one rigid motion, and masking selects its entries.", "quantifier": "every pair of frames, every mask", "why_tests_cant": "Universal over SE(3).", "anchors": ["mjinx/components/tasks/_obj_frame_task.py:JaxFrameTask.__call__"]}
{"id": "C34", "title": "Frame task Jacobian is the derivative of its error", "statement": "compute_jacobian of a FrameTask maps a joint velocity to the time derivative of the task value.", "quantifier": "every configuration, target, velocity", "why_tests_cant": "The existing test checks only the shape.", "anchors": ["mjinx/components/tasks/_obj_frame_task.py:JaxFrameTask.compute_jacobian"]}
{"id": "C35", "title": "Collision pair generation is sound and complete", "statement": "The pairs checked by a SelfCollisionBarrier are exactly the pairs of geoms of two different listed bodies which are not excluded, not welded together, not parent/child (up to welds) and whose contype/conaffinity match; each pair appears once with smaller id first.", "quantifier": "every model, list of bodies, exclusion list", "why_tests_cant": "Unbounded models and lists.", "anchors": ["mjinx/components/barriers/_self_collision_barrier.py:SelfCollisionBarrier._generate_collision_pairs", "mjinx/components/barriers/_self_collision_barrier.py:SelfCollisionBarrier.validate_body_pair", "mjinx/components/barriers/_self_collision_barrier.py:SelfCollisionBarrier.validate_geom_pair"]}
{"id": "C36", "title": "Collision pairs do not depend on listing order", "statement": "Permuting the body list or the exclusion list, duplicating entries, or swapping the two members of an excluded pair yields the same set of collision pairs.", "quantifier": "every model and all permutations", "why_tests_cant": "Permutations are unbounded.", "anchors": ["mjinx/components/barriers/_self_collision_barrier.py:SelfCollisionBarrier._generate_collision_pairs", "mjinx/configuration/_collision.py:sorted_pair"]}
{"id": "C37", "title": "Unknown collision bodies are rejected", "statement": "Listing or excluding a body by a name the model does not contain raises an error instead of silently using another body.", "quantifier": "every model and name", "why_tests_cant": "name2id returns -1 which Python indexing accepts silently.", "anchors": ["mjinx/components/barriers/_self_collision_barrier.py:SelfCollisionBarrier.body2id"]}
{"id": "C38", "title": "Self-collision value is the n smallest distances", "statement": "The barrier value is the n_closest_pairs smallest contact distances in increasing order, each minus its d_min: hence all entries are non-negative iff every contact distance is at least d_min (scalar d_min); n_closest_pairs = -1 means all pairs.", "quantifier": "every list of distances, every n", "why_tests_cant": "Universal statement over lists of reals.", "anchors": ["mjinx/components/barriers/_self_collision_barrier.py:JaxSelfCollisionBarrier.__call__", "mjinx/components/barriers/_self_collision_barrier.py:SelfCollisionBarrier.update_model"]}
{"id": "C39", "title": "Self-collision Jacobian belongs to the reported contact", "statement": "Row i of the self-collision Jacobian is the derivative of entry i of the barrier: it uses the contact normal of the i-th closest contact and the two bodies whose geoms produced this contact, with matching signs.", "quantifier": "every model, set of pairs, configuration", "why_tests_cant": "Needs several pairs of mixed geom types to show a mismatch; the tests use one pair.", "anchors": ["mjinx/components/barriers/_self_collision_barrier.py:JaxSelfCollisionBarrier.compute_jacobian", "mjinx/configuration/_collision.py:compute_collision_pairs"]}
{"id": "C40", "title": "Re-binding a self-collision barrier adapts to the new model", "statement": "After re-binding to another model a SelfCollisionBarrier created with default arguments checks all pairs of the new model.", "quantifier": "every pair of models", "why_tests_cant": "Requires two bindings of the same object.", "anchors": ["mjinx/components/barriers/_self_collision_barrier.py:SelfCollisionBarrier.update_model"]}
{"id": "C41", "title": "Geom grouping is a partition", "statement": "geom_groups puts every requested pair (possibly swapped so that the smaller geom type comes first) into exactly one group, keeps multiplicities and relative order within a group, and two pairs share a group iff types, data ids and contact dimension agree.", "quantifier": "every model and list of pairs", "why_tests_cant": "Unbounded lists.", "anchors": ["mjinx/configuration/_collision.py:geom_groups"]}
{"id": "C42", "title": "Contacts stay attached to their geoms", "statement": "compute_collision_pairs returns geom, dist, pos and frame arrays of equal length; every requested pair contributes exactly the ncon contacts its collision function returns, next to its own geom ids; contacts are ordered by contact dimension. get_distance returns one distance per pair, in order. It refuses, with NotImplementedError, lists with a pair whose geom of the smaller type number is a height field.", "quantifier": "every model and list of pairs, every collision function behaviour", "why_tests_cant": "Unbounded lists; grouping permutes.", "anchors": ["mjinx/configuration/_collision.py:compute_collision_pairs", "mjinx/configuration/_collision.py:get_distance"]}
{"id": "C43", "title": "Local IK objective is the weighted least-squares task objective", "statement": "For every velocity v, 0.5 v'Pv + c'v differs by a constant from the sum over tasks of 0.5||W(Jv + gain*gain_fn(e))||^2 + 0.5*lm*||W gain gain_fn(e)||^2 ||v||^2, soft constraints analogously without damping, plus 0.5*beta_b||v||^2 per barrier.", "quantifier": "every list of components, every velocity", "why_tests_cant": "An identity over reals and over component lists.", "anchors": ["mjinx/solvers/_local_ik.py:LocalIKSolver.__compute_qp_matrices"]}
{"id": "C44", "title": "Local IK Hessian is symmetric positive semidefinite", "statement": "P is symmetric and v'Pv >= 0 for all v when damping and safe-displacement gains are non-negative, so the QP is convex; every task constructor rejects negative damping.", "quantifier": "every list of components, every velocity", "why_tests_cant": "Universal over reals.", "anchors": ["mjinx/solvers/_local_ik.py:LocalIKSolver.__compute_qp_matrices", "mjinx/components/tasks/_base.py:Task.__init__"]}
{"id": "C45", "title": "Barrier rows encode the CBF condition", "statement": "A velocity satisfies the inequality rows contributed by a barrier iff J v >= -gain*gain_fn(h) in every component, with one row per barrier entry and rows in component order.", "quantifier": "every list of components, every velocity", "why_tests_cant": "Universal over reals and lists.", "anchors": ["mjinx/solvers/_local_ik.py:LocalIKSolver.__compute_qp_matrices"]}
{"id": "C46", "title": "Velocity limits are enforced", "statement": "Every velocity feasible for the local IK inequality constraints satisfies v_min <= v <= v_max, and without barriers every such velocity is feasible.", "quantifier": "every v_min, v_max, velocity", "why_tests_cant": "The existing test uses limits for which the mistake is invisible.", "anchors": ["mjinx/solvers/_local_ik.py:LocalIKSolver.__compute_qp_matrices"]}
{"id": "C47", "title": "Hard constraints become equalities", "statement": "A velocity satisfies the equality rows iff J v = -gain*gain_fn(f) for every hard constraint; there are no equality rows iff there is no hard constraint; soft constraints, tasks and barriers add none.", "quantifier": "every list of components, every velocity", "why_tests_cant": "Universal over reals and lists.", "anchors": ["mjinx/solvers/_local_ik.py:LocalIKSolver.__compute_qp_matrices"]}
{"id": "C48", "title": "Inactive constraints have no effect", "statement": "A constraint whose active flag is False does not influence the local IK problem.", "quantifier": "every list of components", "why_tests_cant": "The flag is stored and compiled but never read.", "anchors": ["mjinx/components/constraints/_base.py:Constraint", "mjinx/solvers/_local_ik.py:LocalIKSolver.__compute_qp_matrices"]}
{"id": "C49", "title": "Component order is irrelevant for local IK", "statement": "Permuting the components of a problem leaves P and c unchanged and permutes the rows of (A, b) and (G, h), so the set of optimal velocities is the same.", "quantifier": "every permutation of every component list", "why_tests_cant": "n! orders.", "anchors": ["mjinx/solvers/_local_ik.py:LocalIKSolver.__compute_qp_matrices", "mjinx/problem.py:Problem.compile"]}
{"id": "C50", "title": "Local IK data are always finite", "statement": "With finite component values and Jacobians the assembled P and c contain only finite numbers.", "quantifier": "every component list and configuration", "why_tests_cant": "Needs the exceptional configuration with zero barrier Jacobian.", "anchors": ["mjinx/solvers/_local_ik.py:LocalIKSolver.__compute_qp_matrices"]}
{"id": "C51", "title": "Solver input checks and history independence", "statement": "solve raises ValueError iff q does not have shape (nq,); init accepts exactly vectors of length nv (local) or nq (global); the local solution depends on q and the problem only, not on solver_data, and the returned data carry the returned velocity.", "quantifier": "every input shape, every solver history", "why_tests_cant": "Histories of warm-start data are unbounded.", "anchors": ["mjinx/solvers/_base.py:Solver.solve", "mjinx/solvers/_local_ik.py:LocalIKSolver.solve_from_data", "mjinx/solvers/_local_ik.py:LocalIKSolver.init", "mjinx/solvers/_global_ik.py:GlobalIKSolver.init"]}
{"id": "C52", "title": "Optimality of the local IK step", "statement": "If the QP solver returns a point satisfying the KKT conditions of the assembled QP, then it minimises the weighted least-squares objective among all velocities satisfying the assembled constraints, and at zero task errors with the zero velocity feasible it attains the zero-velocity objective value.", "quantifier": "every component list, every KKT point", "why_tests_cant": "Universal over reals.", "anchors": ["mjinx/solvers/_local_ik.py:LocalIKSolver.solve_from_data"]}
{"id": "C53", "title": "Equality constraint decay", "statement": "If a velocity satisfies the hard-constraint equality rows and the constraint function is affine along the motion, the constraint value after n explicit Euler steps is (1-gain*dt)^n times the initial one.", "quantifier": "every constraint, gain, step size, number of steps", "why_tests_cant": "Infinite-horizon statement.", "anchors": ["mjinx/components/constraints/_base.py", "mjinx/solvers/_local_ik.py:LocalIKSolver.__compute_qp_matrices"]}
{"id": "C54", "title": "Model equality constraint dimension", "statement": "ModelEqualityConstraint has dimension 3 per connect, 6 per weld, 1 per joint equality, rejects every other equality type with ValueError, selects exactly the equality rows of the constraint arrays; a model without equalities gives dimension 0 and no rows.", "quantifier": "every list of equality types, every constraint row typing", "why_tests_cant": "Unbounded lists.", "anchors": ["mjinx/components/constraints/_equality_constraint.py"]}
{"id": "C55", "title": "Global IK loss", "statement": "The global loss is the sum over tasks of gain-weighted squared errors minus the sum over barriers of gain-weighted log of the barrier value clipped to [1e-9, 1]; with non-negative gains it is non-negative, it is zero iff all gain-weighted task errors vanish and all barriers are >= 1 where weighted, each barrier term is antitone in the barrier value; problems with constraints raise NotImplementedError.", "quantifier": "every component list and configuration", "why_tests_cant": "Universal over reals.", "anchors": ["mjinx/solvers/_global_ik.py:GlobalIKSolver.loss_fn"]}
{"id": "C56", "title": "Global IK honours task costs", "statement": "Changing the cost or gain_fn of a task changes its weight in the global IK loss (documented ||e||^2_W).", "quantifier": "every task", "why_tests_cant": "Nothing raises when the cost is ignored.", "anchors": ["mjinx/solvers/_global_ik.py:GlobalIKSolver.loss_fn"]}
{"id": "C57", "title": "Global IK penalty prevents violation", "statement": "The penalty grows without bound as a barrier value tends to 0 and its gradient pushes a violated barrier back.", "quantifier": "every barrier value", "why_tests_cant": "Clipping makes the loss flat; only visible in violated states.", "anchors": ["mjinx/solvers/_global_ik.py:GlobalIKSolver.loss_fn"]}
{"id": "C58", "title": "Global IK solution consistency", "statement": "q_opt equals integrate(q, v_opt, dt) for models with hinge/slide joints only; v_opt has length nv.", "quantifier": "every model, q, optimizer update, dt", "why_tests_cant": "Universal over models.", "anchors": ["mjinx/solvers/_global_ik.py:GlobalIKSolver.solve"]}
{"id": "C59", "title": "Joint zero configuration", "statement": "get_joint_zero returns a vector of length nq with unit quaternions for free/ball joints and zeros elsewhere.", "quantifier": "every joint list", "why_tests_cant": "Unbounded joint lists.", "anchors": ["mjinx/configuration/_lie.py:get_joint_zero"]}
{"id": "C60", "title": "Joint difference", "statement": "joint_difference(q1,q2) has length nv, equals q1-q2 on hinge/slide joints, is zero iff the configurations represent the same pose, and has the same orientation (q1 relative to q2) for all joint types; integrating q2 by it gives back q1 on hinge/slide joints.", "quantifier": "every joint list, q1, q2", "why_tests_cant": "Unbounded joint lists, Lie groups.", "anchors": ["mjinx/configuration/_lie.py:joint_difference"]}
{"id": "C61", "title": "Velocity-to-configuration-rate matrix", "statement": "jac_dq2v has shape nq x nv, is block diagonal per joint at the joint's own rows/columns, and maps v to the configuration rate: identity on hinge/slide/translation, quaternion product with the angular velocity on quaternions, tangent to the unit sphere; its scale is such that Jacobian wrt qpos times it is the Jacobian wrt v.", "quantifier": "every joint list and configuration and velocity", "why_tests_cant": "Unbounded joint lists; missing factor invisible in shape tests.", "anchors": ["mjinx/configuration/_lie.py:jac_dq2v", "mjinx/configuration/_lie.py:attitude_jacobian", "mjinx/configuration/_lie.py:skew_symmetric"]}
{"id": "C62", "title": "Skew matrix and attitude Jacobian", "statement": "skew_symmetric(v) w = v x w and is antisymmetric; attitude_jacobian(q) w = q (x) (0,w), its columns are orthogonal to q and to each other with norm |q|.", "quantifier": "every q, v, w", "why_tests_cant": "Universal identities.", "anchors": ["mjinx/configuration/_lie.py:skew_symmetric", "mjinx/configuration/_lie.py:attitude_jacobian"]}
{"id": "C63", "title": "Frame Jacobians", "statement": "get_frame_jacobian_local is the world-aligned Jacobian with linear and angular parts rotated by R^T; only degrees of freedom of the object's body and its ancestors have non-zero rows; point velocities of two points of one body satisfy v2 = v1 + omega x (p2-p1).", "quantifier": "every kinematic tree, object, configuration data", "why_tests_cant": "Unbounded trees.", "anchors": ["mjinx/configuration/_model.py:get_frame_jacobian_world_aligned", "mjinx/configuration/_model.py:get_frame_jacobian_local"]}
{"id": "C64", "title": "Relative transforms", "statement": "get_transform(model, data, a, a) is the identity and get_transform(a->b) composes: T(b->c) T(a->b) = T(a->c).", "quantifier": "every pair of frames", "why_tests_cant": "Universal over SE(3).", "anchors": ["mjinx/configuration/_model.py:get_transform", "mjinx/configuration/_model.py:get_transform_frame_to_world"]}
{"id": "C65", "title": "Integration", "statement": "integrate keeps the length nq, is q + dt v on hinge/slide joints and on free-joint translations, keeps quaternions of free/ball joints at unit norm, and is the identity for zero velocity on normalised configurations.", "quantifier": "every joint list, q, v, dt", "why_tests_cant": "Unbounded joint lists.", "anchors": ["mjinx/configuration/_model.py:integrate"]}
{"id": "C66", "title": "Configuration limit rows", "statement": "get_configuration_limit(limit) returns (G, h) with G v <= h iff |v_i| <= limit_i for all i; scalar limits are broadcast.", "quantifier": "every nv, limit, v", "why_tests_cant": "Universal over reals.", "anchors": ["mjinx/configuration/_model.py:get_configuration_limit"]}
{"id": "C67", "title": "Centre-of-mass computation", "statement": "The subtree centre of mass used by the ComTask Jacobian is the mass-weighted mean of the body positions in the subtree, for any tree, falls back to the body position for massless subtrees, and for the root covers all bodies.", "quantifier": "every kinematic tree with non-negative masses", "why_tests_cant": "Unbounded trees.", "anchors": ["mjinx/components/tasks/_com_task.py:JaxComTask.compute_jacobian"]}
{"id": "C68", "title": "Marker bookkeeping", "statement": "After any sequence of add_markers calls with fresh names, marker ids are exactly 0..n_markers-1 without duplicates, each stored under its name with the requested size/type/alpha, and drawing writes each marker to its own slot among the last n_markers scene slots.", "quantifier": "every sequence of add_markers calls", "why_tests_cant": "Unbounded histories.", "anchors": ["mjinx/visualize.py:BatchVisualizer.add_markers", "mjinx/visualize.py:BatchVisualizer._draw_markers"]}
{"id": "C69", "title": "Marker colour interpolation", "statement": "The first marker gets color_begin, the last color_end and those between are convex combinations.", "quantifier": "every n_markers and colour pair", "why_tests_cant": "Universal statement.", "anchors": ["mjinx/visualize.py:BatchVisualizer.add_markers"]}
{"id": "C70", "title": "Marker rotation matrix", "statement": "For a unit quaternion the returned matrix is a proper rotation equal to the conjugation action of the quaternion; other shapes raise ValueError; a 2-D rotation is returned raveled.", "quantifier": "every quaternion and shape", "why_tests_cant": "Universal identity.", "anchors": ["mjinx/visualize.py:MarkerData.rot_matrix"]}
{"id": "C71", "title": "High-level body removal", "statement": "remove_high_level_body_tags leaves in worldbody all non-body children followed by the children of the removed bodies in order; no grand-child is lost or duplicated; and stripping the hash from name-hash.ext yields name.ext.", "quantifier": "every XML tree and file name", "why_tests_cant": "Unbounded trees and strings.", "anchors": ["mjinx/visualize.py:BatchVisualizer.remove_high_level_body_tags"]}
{"id": "C72", "title": "Transparency is applied once", "statement": "Creating a visualizer with transparency alpha multiplies the alpha of every visible geom by alpha exactly once, removes exactly the geoms of other groups and disables collisions for the rest.", "quantifier": "every list of geoms and default classes", "why_tests_cant": "Unbounded geoms sharing classes.", "anchors": ["mjinx/visualize.py:BatchVisualizer._generate_mj_model"]}
{"id": "C73", "title": "Marker drawing does not clobber the scene", "statement": "Drawing markers into the recording scene leaves the model geoms of the scene intact.", "quantifier": "every scene and marker set", "why_tests_cant": "Needs recording with markers.", "anchors": ["mjinx/visualize.py:BatchVisualizer.update", "mjinx/visualize.py:BatchVisualizer._draw_markers"]}
{"id": "C74", "title": "Legacy Model object is usable", "statement": "Constructing mjinx.model.Model with a model and limits yields an object whose update(q) returns data for q.", "quantifier": "every model and q", "why_tests_cant": "Module has no tests.", "anchors": ["mjinx/model.py:Model"]}
{"id": "C75", "title": "mask and mask_idxs agree", "statement": "At any moment the two public views of a component's selection agree: mask_idxs lists exactly the non-zero positions of mask, also after re-binding the component to another model.", "quantifier": "all components, all histories of successful API calls (bindings to any models, reads, setters)", "why_tests_cant": "The two attributes are cached and refreshed by different code paths per component kind; only particular interleavings of reads and re-bindings expose a disagreement.", "anchors": ["mjinx/components/_base.py: Component.mask, Component.mask_idxs", "mjinx/components/constraints/_equality_constraint.py: ModelEqualityConstraint.update_model", "mjinx/components/tasks/_joint_task.py: JointTask.update_model"]}
{"id": "C76", "title": "Automatic Jacobians are derivatives along the motion", "statement": "The Jacobian a task or barrier computes by automatic differentiation, applied to a joint velocity, is the time derivative of its value along the motion with that velocity.", "quantifier": "every model, component without a hand-written Jacobian, configuration and velocity", "why_tests_cant": "A derivative identity over all configurations and velocities.", "anchors": ["mjinx/components/_base.py:JaxComponent.compute_jacobian", "mjinx/configuration/_lie.py:jac_dq2v"]}
{"id": "C77", "title": "jit does not change the problem", "statement": "Passing a compiled problem through jax.jit or vmap, which rebuilds the component dictionary in sorted key order, changes neither the optimal velocities of the local QP nor the loss of the global solver; nor does any other order of components.", "quantifier": "every compiled problem, configuration and order of components", "why_tests_cant": "Unbounded sets of names and components.", "anchors": ["mjinx/solvers/_local_ik.py:LocalIKSolver.__compute_qp_matrices", "mjinx/solvers/_global_ik.py:GlobalIKSolver.loss_fn", "mjinx/problem.py:JaxProblemData"]}
{"id": "C78", "title": "Assets of the combined model", "statement": "Every mesh and texture file the edited document refers to is supplied as an asset under that name with the content of the file the original model refers to.", "quantifier": "every document and directory tree", "why_tests_cant": "Unbounded documents and directories.", "anchors": ["mjinx/visualize.py:BatchVisualizer.remove_high_level_body_tags", "mjinx/visualize.py:BatchVisualizer.__find_asset"]}
{"id": "C79", "title": "Recording", "statement": "With recording on, every update that returns adds exactly one frame and never changes earlier ones, save_video writes all frames in order to filename.mp4 (or a time stamp when no name was given); without recording nothing is written; after close saving raises.", "quantifier": "every history of calls", "why_tests_cant": "Unbounded histories.", "anchors": ["mjinx/visualize.py:BatchVisualizer.update", "mjinx/visualize.py:BatchVisualizer.save_video", "mjinx/visualize.py:BatchVisualizer.close"]}
{"id": "C80", "title": "Batch layout", "statement": "update(q) with one row per instance shows row i on instance i: the combined configuration is the concatenation of the rows, the joints of the combined model are those of the instances in order, and instance prefixes are distinct; a batch of the wrong size raises ValueError and changes nothing.", "quantifier": "every batch and document", "why_tests_cant": "Unbounded batches and trees.", "anchors": ["mjinx/visualize.py:BatchVisualizer.update", "mjinx/visualize.py:BatchVisualizer._generate_mj_model", "mjinx/visualize.py:BatchVisualizer.get_prefix"]}
{"id": "C81", "title": "Settings are independent registers", "statement": "Gain, cost, target and limits of a component are, after any history of public calls, the value of the last call of the corresponding setter that returned (initially the constructor argument or the documented default: zero vector, identity frame); rejected calls leave no trace, no other setter, read or model binding changes them, and name, gain function, class, damping and object never change. The compiled component carries exactly these values.", "quantifier": "every component kind, every history of public calls including failing ones and re-bindings", "why_tests_cant": "Histories are unbounded; each pair of setters would need its own test.", "anchors": ["mjinx/components/_base.py:Component", "mjinx/components/tasks", "mjinx/components/barriers"]}
{"id": "C82", "title": "Lanes of a batch", "statement": "Setting arrays with a leading batch axis as targets or limits of components of a problem, and giving axis 0 to exactly these fields in the template of set_vmap_dimension, makes lane i of the vmapped call receive exactly the problem data that compile returns when row i alone is set on each of those components; every row is used once and nothing else of the data differs between lanes.", "quantifier": "every program, every set of batched settings the components store, every batch size and lane", "why_tests_cant": "Batch sizes, programs and combinations of settings are unbounded.", "anchors": ["mjinx/problem.py:Problem.set_vmap_dimension", "mjinx/problem.py:Problem.compile", "mjinx/components/tasks", "mjinx/components/barriers"]}
{"id": "C83", "title": "The local solver returns a best admissible velocity", "statement": "Call a velocity admissible if it is within the velocity limits as the solver uses them (C46), meets every barrier condition and every hard constraint. If any velocity is admissible then one of least total documented cost among the admissible ones exists, the local solver returns such a velocity (or reports a non-finite value when the Jacobian of some barrier is exactly zero), and whenever standing still is allowed (inside the barriers, hard constraints met, zero within the velocity limits) the result exists and costs no more than standing still.", "quantifier": "every program, model, configuration, component mix, costs, gains and damping", "why_tests_cant": "Optimality compares the result with infinitely many velocities, and existence has no witness to test.", "anchors": ["mjinx/solvers/_local_ik.py:LocalIKSolver.solve_from_data", "mjinx/solvers/_local_ik.py:LocalIKSolver.__compute_qp_matrices"]}
{"id": "C84", "title": "Uniqueness of the local solution", "statement": "If some task or soft constraint constrains every direction of motion with its weight, or some task is damped with a non-zero weighted error, or some barrier has a positive safe displacement gain, then the best admissible velocity is unique. In every case the weighted task-space velocity of each task and soft constraint is the same for all best velocities.", "quantifier": "every program with non-negative damping and safe displacement gains, every configuration", "why_tests_cant": "Uniqueness is a statement about all minimisers; a test sees the one the solver returned.", "anchors": ["mjinx/solvers/_local_ik.py:LocalIKSolver.__compute_qp_matrices", "mjinx/components/tasks/_base.py:JaxTask", "mjinx/components/barriers/_base.py:JaxBarrier"]}
{"id": "C85", "title": "Only ratios of costs matter", "statement": "Multiplying the cost of every task by the same non-zero number (and likewise the weights of soft constraints, and safe displacement gains by its square) does not change which velocities are best.", "quantifier": "every compiled problem, every non-zero factor; through the API, every program whose only costs are those of tasks", "why_tests_cant": "The factor, the problem and the compared velocities are unbounded.", "anchors": ["mjinx/components/tasks/_base.py:Task.cost", "mjinx/solvers/_local_ik.py:LocalIKSolver.__compute_qp_matrices"]}
{"id": "C86", "title": "A task of cost zero has no influence", "statement": "Setting the cost of a task of a problem to zero gives exactly the same best velocities as removing the task from the problem, whatever its gain, damping, target and error.", "quantifier": "every program, every task registered in the problem, every configuration", "why_tests_cant": "Both programs must be compared on all configurations and all velocities.", "anchors": ["mjinx/components/tasks/_base.py:Task.cost", "mjinx/problem.py:Problem.remove_component", "mjinx/solvers/_local_ik.py:LocalIKSolver.__compute_qp_matrices"]}
{"id": "C87", "title": "The closed-loop error never grows", "statement": "Repeating solve and integrate with step dt, where the solver minimises its programme: if each task and soft constraint uses one gain g for all axes with 0 <= g dt <= 2, a linear gain function, and standing still is admissible, then the weighted error (sum over components of g/2 |W e|^2) does not grow in a step in which the errors change by dt J v. For problems made of posture tasks and joint limits (barrier gains with 0 <= a dt <= 1) the loop runs for ever from every configuration within the limits, never leaves them, and the weighted error never grows. The bound on g dt cannot be dropped.", "quantifier": "every program, configuration, velocity limits around zero, number of steps, and QP solver that minimises", "why_tests_cant": "Loops of every length from every start; a test follows one trajectory for a fixed time.", "anchors": ["mjinx/solvers/_local_ik.py:LocalIKSolver.solve_from_data", "mjinx/solvers/_local_ik.py:LocalIKSolver.__compute_qp_matrices", "mjinx/configuration/_model.py:integrate", "mjinx/components/tasks/_joint_task.py:JaxJointTask", "mjinx/components/barriers/_joint_barrier.py:JaxJointBarrier"]}
{"id": "C88", "title": "The error never grows in continuous time", "statement": "If the robot moves at each moment with a best admissible velocity, standing still is always admissible, gain functions are linear with one gain per component, and the Jacobians are the derivatives of the errors along the motion, then the weighted error never grows, for gains of any size. On hinge and slide robots posture tasks, joint limits and all smooth components with automatic Jacobians meet the last condition.", "quantifier": "every program, every motion, every pair of times", "why_tests_cant": "Continuous motions and all pairs of times.", "anchors": ["mjinx/solvers/_local_ik.py:LocalIKSolver.__compute_qp_matrices", "mjinx/components/_base.py:JaxComponent.compute_jacobian", "mjinx/components/tasks/_joint_task.py:JaxJointTask"]}
{"id": "C89", "title": "Barriers and hard constraints in continuous time", "statement": "Along every motion with admissible velocities on which the Jacobian of a barrier is its derivative, a barrier that is not violated stays so (non-negative gains, gain function not positive on negative numbers), and with a linear gain function each entry h obeys h(t) >= h(s) exp(-a (t - s)), also where it is violated. The error of a hard constraint with linear gain function is exactly e(s) exp(-g (t - s)).", "quantifier": "every program, motion, barrier or hard constraint, and pair of times", "why_tests_cant": "Continuous motions and all pairs of times.", "anchors": ["mjinx/solvers/_local_ik.py:LocalIKSolver.__compute_qp_matrices", "mjinx/components/barriers/_base.py:JaxBarrier", "mjinx/components/constraints/_base.py:JaxConstraint"]}
{"id": "C90", "title": "A mask drops axes and nothing else", "statement": "A masked frame, position, centre-of-mass or joint task has, at every configuration, exactly the selected entries of the value and the selected rows of the Jacobian of the same task without a mask. Its contribution to the local IK objective equals, for every velocity, that of the unmasked task whose cost is zero on the dropped axes and the same on the others, so replacing one by the other in a problem does not change the best velocities.", "quantifier": "every mask within the number of axes, every task of the four kinds after any documented calls, every configuration, velocity and cost matrix", "why_tests_cant": "All masks, cost matrices, configurations and velocities; two different code paths (row selection by index and automatic differentiation) have to agree.", "anchors": ["mjinx/components/_base.py:Component.mask_idxs", "mjinx/components/tasks/_obj_frame_task.py:JaxFrameTask", "mjinx/components/tasks/_obj_position_task.py:JaxPositionTask", "mjinx/components/tasks/_com_task.py:JaxComTask", "mjinx/components/tasks/_joint_task.py:JaxJointTask"]}
{"id": "C91", "title": "Changing settings does not re-trace a jitted solver", "statement": "After a problem is compiled, any calls of setters and getters on its components, assignments of a constraint's active flag, a barrier's safe displacement gain or a minimal distance, and new velocity limits give, when the problem is compiled again, data with the same classes, component names and static fields; a function compiled by jax.jit for the first data accepts the second without re-tracing exactly if targets and limits keep their shapes.", "quantifier": "every program that builds and compiles a problem, every later sequence of such calls", "why_tests_cant": "All sequences of setters on all mixtures of components; a re-trace shows only as lost time.", "anchors": ["mjinx/problem.py:Problem.compile", "mjinx/problem.py:JaxProblemData", "mjinx/components/_base.py:JaxComponent", "mjinx/components/_base.py:Component.jax_component"]}
{"id": "C92", "title": "Exactly which components and settings can be used", "statement": "A component made by any constructor and changed by any documented calls can be bound to a robot and compiled exactly if its settings suit the robot: gain and cost are scalars or match its dimension, the named object exists, a joint mask has one flag per hinge or slide, listed bodies exist, and the model's equalities are supported. A program that makes a problem, makes components, adds them and compiles succeeds exactly if the velocity limits fit, the names differ and every component suits. Afterwards a control loop that assigns targets, bounds and limits always compiles, to the same components, even if setters reject some values; solve then returns the solver's answer to the assembled QP or fails because a barrier's Jacobian vanishes. In particular the programs of examples/local_ik.py and README.md work on every robot that has the named body, and the README loop never fails on a robot with a hinge or slide.", "quantifier": "every sound model, every list of components of every class with every documented call before, every later sequence of loop calls, every configuration, every QP solver", "why_tests_cant": "The condition is an equivalence over all component settings, models and programs; tests try a few robots and a few settings.", "anchors": ["mjinx/problem.py:Problem.add_component", "mjinx/problem.py:Problem.compile", "mjinx/components/_base.py:Component.update_model", "mjinx/components/_base.py:Component.jax_component", "mjinx/solvers/_local_ik.py:LocalIKSolver.solve", "examples/local_ik.py", "README.md"]}
{"id": "C93", "title": "A vmapped control loop is one control loop per lane", "statement": "After a problem is set up with suitable components and any loop calls, stacks of targets and bounds that the setters accept compile; the template from set_vmap_dimension can be given axis 0 at their places; lane i of the compiled data, as the jitted and vmapped solver sees it, is the problem compiled after the same calls with row i only. If rows are vectors, every lane's QP assembles with the same set of solutions as the QP of that single problem, or a barrier's Jacobian vanishes there. A stack of poses is accepted by every frame task at any time, and on every robot with the named body and a hinge or slide each lane of the README problem is solved.", "quantifier": "every sound model, every suitable list of components, every history of loop calls, every number of lanes and stacked array, every configuration and QP solver", "why_tests_cant": "All component mixtures, histories, batch sizes and lanes; a wrong lane shows only in that lane's numbers.", "anchors": ["mjinx/problem.py:Problem.set_vmap_dimension", "mjinx/problem.py:Problem.compile", "mjinx/components/tasks/_obj_frame_task.py:FrameTask.update_target_frame", "mjinx/solvers/_local_ik.py:LocalIKSolver.solve", "examples/local_ik_vmapped_output.py"]}
{"id": "C94", "title": "The documented control loop runs for ever and stays within the joint limits", "statement": "Build a problem once from suitable tasks and joint barriers, then repeat: assign plain vectors to targets, bounds and limits (some may be refused), compile, solve at the current configuration, integrate the velocity. However many turns are taken and whatever is assigned, no turn fails and configurations keep their length. If the joint limits are not moved, zero stays between the velocity limits, barrier gains times the step lie in [0, 1] and the QP solver is exact in the turns taken, then a loop started within the limits of its joint barriers is within them in every turn, every velocity is the best admissible one and normalised quaternions stay normalised. In particular the README loop keeps every hinge and slide of any robot within its joint range.", "quantifier": "every sound model, every suitable list of tasks and joint barriers, every number of turns and calls in each turn, every start configuration within the limits, every step and QP solver", "why_tests_cant": "Ranges over all control loops of any length; each turn depends on the history of all earlier ones.", "anchors": ["mjinx/problem.py:Problem.compile", "mjinx/solvers/_local_ik.py:LocalIKSolver.solve", "mjinx/configuration/_model.py:integrate", "mjinx/components/barriers/_joint_barrier.py:JointBarrier", "README.md"]}
{"id": "C95", "title": "The global inverse-kinematics loop runs for ever, and posture descent contracts", "statement": "Build a problem once from suitable tasks and barriers, then repeat: assign plain vectors to targets, bounds and limits (some may be refused), compile, make one GlobalIKSolver step, go on from q_opt. However many turns are taken and whatever optimizer is used, no turn fails and configurations keep their length; in particular the loop of examples/global_ik.py works on every robot with the named body and a pair of geoms to check. If a constraint is among the components, every step raises NotImplementedError. With plain gradient descent of rate r on a posture task, n steps multiply each selected joint's distance from its target by (1 - 2 r g)^n (g its gain) and leave other coordinates alone, so the joint converges to its target exactly if 0 < r g < 1.", "quantifier": "every sound model, every suitable list of tasks and barriers, every number of turns and calls in each turn, every start configuration, every optimizer; every learning rate, gain, mask, target and number of steps", "why_tests_cant": "All loops of any length, all component mixtures and all optimizers; convergence is a limit statement no finite run settles.", "anchors": ["mjinx/solvers/_global_ik.py:GlobalIKSolver.solve_from_data", "mjinx/solvers/_global_ik.py:GlobalIKSolver.loss_fn", "mjinx/problem.py:Problem.compile", "examples/global_ik.py"]}
{"id": "C96", "title": "A control loop with any components runs, or stops only because a barrier is idle", "statement": "Build a problem once from any suitable tasks, barriers and constraints, then repeat: assign plain vectors to targets, bounds and limits, compile, solve with LocalIKSolver, integrate the velocity. Either the loop runs through all its turns, or at some turn solve returns a non-finite velocity because a barrier's Jacobian is zero at the configuration reached; nothing else stops it. If every barrier is a joint barrier on at least one joint it never stops. With an exact QP solver and mild barrier gains, every configuration stays within the joint limits and every velocity is the best admissible one, provided each turn has an admissible velocity; which is so when zero is within the velocity limits, the barriers are joint barriers on at least one joint and no constraint is hard. The loop of examples/cassie_squat.py (unbatched) therefore works on every robot with the named bodies, a hinge or slide joint and supported equalities.", "quantifier": "every sound model, every suitable list of components, every number of turns and calls in each turn, every start configuration, every solver that returns one entry per variable (every exact one for the limits)", "why_tests_cant": "All loops of any length over all mixtures of components on all robots; a run shows one trajectory.", "anchors": ["mjinx/solvers/_local_ik.py:LocalIKSolver.solve", "mjinx/solvers/_local_ik.py:process_barrier", "mjinx/configuration/_model.py:integrate", "mjinx/problem.py:Problem.compile", "examples/cassie_squat.py"]}
{"id": "C97", "title": "Goals that can all be met at once are met exactly, whatever their weights", "statement": "If some admissible velocity gives every task and every soft constraint exactly the velocity it asks for (J v = - gain * gain_fn(error)), and costs have no zeros and nothing is damped, then the exact solution of LocalIKSolver's problem does so too, however the costs compare; with Levenberg-Marquardt damping on an unfinished task or a safe displacement gain on a barrier, a moving solution never does. Along a motion on which the goals stay compatible, with linear gain functions, each error entry decays as exp(-gain t); with steps of length dt along which errors change by dt J v, as (1 - gain dt)^k.", "quantifier": "every program that builds and compiles a problem, all components, costs, gains and data, every admissible velocity, all motions and numbers of steps", "why_tests_cant": "It compares the solution with every admissible velocity at every configuration, and speaks about all times along all motions.", "anchors": ["mjinx/solvers/_local_ik.py:LocalIKSolver.solve", "mjinx/solvers/_local_ik.py:process_task", "mjinx/components/tasks/_base.py:Task.matrix_cost", "mjinx/components/_base.py:Component.gain"]}
{"id": "C98", "title": "More damping never lengthens the step", "statement": "Raise lm_damping of a task (or safe_displacement_gain of a barrier) and leave everything else as it is: at every configuration where that damping has an effect (the task's weighted error is not zero), the exact solution of LocalIKSolver's problem is no longer than before, and judged without damping terms it is no better. The same for any problem that differs from another only by more damping.", "quantifier": "every program that builds and compiles a problem, every component and new damping value, every configuration, all best velocities of both problems", "why_tests_cant": "It compares the minimisers of two optimisation problems over all problems; a test compares two numbers.", "anchors": ["mjinx/components/tasks/_base.py:lm_damping", "mjinx/components/barriers/_base.py:safe_displacement_gain", "mjinx/solvers/_local_ik.py:LocalIKSolver.solve"]}
{"id": "C99", "title": "Gains and velocity limits set the speed: scaling them all scales the solution", "statement": "For a problem without Levenberg-Marquardt damping, assign s times its gain to each component and s times the limits to the problem, s > 0: it compiles again, and at every configuration its exact solutions are those of the old problem times s. With damping the same holds if it is divided by s squared.", "quantifier": "every program that builds and compiles a problem, every s > 0, every configuration and velocity", "why_tests_cant": "All problems, all factors and all velocities at once.", "anchors": ["mjinx/components/_base.py:Component.gain", "mjinx/problem.py:Problem.v_min", "mjinx/problem.py:Problem.v_max", "mjinx/solvers/_local_ik.py:LocalIKSolver.solve"]}
{"id": "C100", "title": "A further restriction can only cost, and one that does not bind changes nothing", "statement": "Adding a component to a problem appends it and leaves the rest unchanged. A further barrier without safe displacement gain or a further hard constraint never lowers the cost of the exact solution; if the solution already obeys it, it stays the solution; and a barrier the new solution stays strictly inside could have been left out. Wider velocity limits never raise the cost, and a solution within the old limits was already the solution.", "quantifier": "every program and component for the addition, every compiled problem and restriction, every configuration, all best velocities", "why_tests_cant": "It compares solutions of two problems for all problems; whether a barrier binds is not known beforehand.", "anchors": ["mjinx/problem.py:Problem.add_component", "mjinx/solvers/_local_ik.py:process_barrier", "mjinx/solvers/_local_ik.py:LocalIKSolver.solve"]}
{"id": "C101", "title": "A higher cost serves its component better, and a high enough one serves it as well as wanted", "statement": "Assign a task a larger multiple of its cost: the exact solution then serves the task at least as well as before and the other components together at most as well. A goal that some admissible velocity meets exactly is missed by at most (cost of the others at that velocity) / s^2 when its cost is multiplied by s.", "quantifier": "every program that builds and compiles a problem, every component and factor, every configuration, all best velocities", "why_tests_cant": "A statement about minimisers of a one-parameter family of problems, for every problem.", "anchors": ["mjinx/components/tasks/_base.py:Task.matrix_cost", "mjinx/components/tasks/_base.py:Task.cost", "mjinx/solvers/_local_ik.py:LocalIKSolver.solve"]}
{"id": "C102", "title": "The same demand written in two ways gives the same solutions", "statement": "A soft constraint on a user function has the same exact solutions as an undamped task with the same function, cost, gain and mask. A component given twice with cost factors a and b has the same solutions as once with factor sqrt(a^2 + b^2).", "quantifier": "every program that builds and compiles a problem, every function, cost, gain and mask, every configuration and velocity", "why_tests_cant": "Equality of solution sets for all problems and functions.", "anchors": ["mjinx/components/constraints/_base.py:soft_constraint_cost", "mjinx/solvers/_local_ik.py:process_task", "mjinx/components/tasks/_base.py:JaxTask"]}
{"id": "C103", "title": "A solver tolerance widens the limits by the tolerance divided by the gain, and no more", "statement": "A velocity violates no row of the assembled quadratic programme by more than eps exactly if it keeps velocity limits, barrier conditions and hard constraint equations up to eps. Applying such velocities step after step leaves at least the share r = (1 - gain*dt)^k of the initial joint slack, less (1 - r)*eps/gain; so joints stay within limits widened by eps/gain, and this bound is attained. In continuous time any barrier and any hard constraint is off by at most (1 - r)*eps/gain with r = exp(-gain*t). The documented control loop, and README.md's loop, keep every limited joint within its limits widened by eps/gain whatever the tasks do and however long it runs.", "quantifier": "every tolerance, every program that builds and compiles a problem, every sequence of velocities within tolerance, every number of steps, every control loop of target, gain and limit assignments", "why_tests_cant": "OSQP stops at a tolerance that differs from run to run; that errors do not add up over an unlimited number of steps is a statement about all error sequences.", "anchors": ["mjinx/solvers/_local_ik.py:LocalIKSolver.solve", "mjinx/solvers/_local_ik.py:process_barrier", "mjinx/components/barriers/_joint_barrier.py:JointBarrier", "mjinx/configuration/_model.py:integrate"]}
{"id": "C104", "title": "A nearly best velocity is close to the best one", "statement": "If the objective is x at the best velocity v and y at an admissible velocity w, then the squared differences of weighted task velocities, plus damping times the squared difference of the velocities, sum to at most 2*(y - x).", "quantifier": "every program that builds and compiles a problem, every configuration, every best and every admissible velocity", "why_tests_cant": "A bound on all nearly optimal answers a solver may return, for every problem.", "anchors": ["mjinx/solvers/_local_ik.py:LocalIKSolver.solve", "mjinx/solvers/_local_ik.py:process_task", "mjinx/solvers/_local_ik.py:process_barrier"]}
{"id": "C105", "title": "Damping bounds the speed, also at singularities", "statement": "If every task has Levenberg-Marquardt damping of at least lam > 0, there are no soft constraints, some task is off target and standing still is admissible, then the squared norm of the exact solution is at most 1/(4*lam), whatever Jacobians, costs, gains and errors.", "quantifier": "every program that builds and compiles a problem, every configuration (in particular singular ones and those close to them), every damping", "why_tests_cant": "Near a singularity undamped solutions are unbounded; that no configuration exceeds the bound is a statement about all Jacobians.", "anchors": ["mjinx/solvers/_local_ik.py:process_task", "mjinx/components/tasks/_base.py:Task.lm_damping", "mjinx/solvers/_local_ik.py:LocalIKSolver.solve"]}
{"id": "C106", "title": "Moving a target a little moves the solution a little", "statement": "Assign a new target to one undamped joint, position or centre-of-mass task, compile again and solve at the same configuration. Let y be the squared length of the change of the task's weighted, gained error (without a gain function: of the weighted, gained distance between the targets). Then the weighted velocities of all other components change by at most y/4 in squared length and the task's own by at most y. If some other component penalises every change of velocity by at least lam > 0 (damping, safe displacement, or an injective weighted Jacobian), the joint velocities differ by at most y/(4*lam) in squared length; this is attained.", "quantifier": "every program that builds and compiles a problem, every task with a vector target, every old and new target, every configuration, every best velocity before and after", "why_tests_cant": "A Lipschitz bound relates all pairs of targets; barriers and limits may become active or inactive in between.", "anchors": ["mjinx/components/tasks/_joint_task.py:update_target_q", "mjinx/components/tasks/_obj_position_task.py:update_target_pos", "mjinx/components/tasks/_com_task.py:update_target_com", "mjinx/solvers/_local_ik.py:process_task", "mjinx/solvers/_local_ik.py:LocalIKSolver.solve"]}
{"id": "C107", "title": "A task may be split into tasks over fewer axes", "statement": "Replace a joint, frame, position or centre-of-mass task by several masked tasks such that each axis belongs to exactly one of them, with the gains, weights, targets and damping the whole has there, and such that the weight does not mix axes of different parts. At every velocity the parts add exactly what the whole added to the objective, so the problem has the same best velocities, whatever the order of registration. With a scalar or vector cost every partition of the axes qualifies.", "quantifier": "every task of the four kinds, every partition of its axes, every problem it is part of, every configuration and velocity", "why_tests_cant": "Equality of two optimisation problems for all partitions, weights and configurations; a test compares two numbers.", "anchors": ["mjinx/components/_base.py:Component", "mjinx/components/tasks/_base.py:Task", "mjinx/components/tasks/_obj_position_task.py:PositionTask", "mjinx/solvers/_local_ik.py:process_task"]}
{"id": "C108", "title": "A position barrier may be split by side and axis", "statement": "Replace an unmasked position barrier with both limits by several position barriers (with any limit type and mask) that together guard each side of each axis with the same limits and gains. Each part's value and Jacobian are the rows of the whole that it guards. A velocity meets the condition of the whole exactly when it meets the condition of every part, so the problem admits the same velocities; without safe displacement and with non-zero Jacobians it has the same best velocities. If one part's Jacobian vanishes, the split problem has no solution although the whole had one.", "quantifier": "every position barrier on any object, every cover of its six rows by barriers, every problem it is part of, every configuration and velocity", "why_tests_cant": "Equality of two feasible sets for all covers and configurations; the failure occurs only in configurations where a part's Jacobian is zero.", "anchors": ["mjinx/components/barriers/_obj_position_barrier.py:PositionBarrier", "mjinx/components/barriers/_obj_position_barrier.py:JaxPositionBarrier", "mjinx/solvers/_local_ik.py:process_barrier"]}
{"id": "C109", "title": "When changing a list or array after passing it matters", "statement": "Numeric arguments (gains, costs, targets, joint, position and velocity limits, masks of other components) are copied when they are passed: changing the caller's array afterwards has no effect on anything. The mask of a joint task or joint barrier and the body and exclusion lists of a self-collision barrier are kept by reference: a program that leaves those lists alone behaves as if every argument were copied; changing one is unnoticed until the component is bound to a model again, and then the contents at that time count.", "quantifier": "every program that interleaves creating and changing its own lists and arrays with construction and calls on any number of components and problems", "why_tests_cant": "Ranges over all interleavings of in-place changes and calls; whether a change shows depends on the whole history of bindings.", "anchors": ["mjinx/components/_base.py:Component", "mjinx/components/tasks/_joint_task.py:JointTask", "mjinx/components/barriers/_joint_barrier.py:JointBarrier", "mjinx/components/barriers/_self_collision_barrier.py:SelfCollisionBarrier", "mjinx/problem.py:Problem"]}
{"id": "C110", "title": "The order in which components are registered does not matter", "statement": "The loss of the global solver is a sum with one term per component: the loss of a problem is the loss with some of its components plus the loss with the others, and does not depend on their order. So any number of steps of any optimizer gives the same configurations for any order. Two programs that add the same components in different orders compile to the same components and limits, have the same loss, and give the local solver problems with the same optimal velocities.", "quantifier": "every robot, set of components, registration order, configuration, optimizer and number of steps", "why_tests_cant": "Ranges over all permutations of unboundedly many components and over all optimizers and numbers of steps.", "anchors": ["mjinx/solvers/_global_ik.py:GlobalIKSolver", "mjinx/solvers/_global_ik.py:loss_fn", "mjinx/solvers/_local_ik.py:LocalIKSolver", "mjinx/problem.py:Problem"]}
{"id": "C111", "title": "Looking at a component does not change it", "statement": "Reading public attributes (including mask, mask_idxs and jax_component, whose getters write private attributes) between calls changes neither which later calls return or raise nor what any attribute shows later. The exceptions are the modified flag and the mask of a model equality constraint that is bound again. While modified is False, a look leaves the component exactly as it is.", "quantifier": "every constructible component and every interleaving of public calls (returning or raising) and attribute reads", "why_tests_cant": "Two getters and the compiled component are lazily cached, so the claim is about all interleavings of reads with updates and bindings.", "anchors": ["mjinx/components/_base.py:jax_component", "mjinx/components/_base.py:mask", "mjinx/components/_base.py:mask_idxs", "mjinx/components/_base.py:__setattr__"]}
{"id": "C112", "title": "When a component counts as unmodified", "statement": "The modified attribute is False exactly if the compiled component has been read successfully and everything done since is a read, a call that raised and was not a binding, or a limit update that the limit type ignores.", "quantifier": "every constructible component and every sequence of calls and reads", "why_tests_cant": "An equivalence over all histories; a missed case would serve a stale compiled component or rebuild needlessly.", "anchors": ["mjinx/components/_base.py:modified", "mjinx/components/_base.py:__setattr__", "mjinx/components/_base.py:jax_component", "mjinx/components/barriers/_obj_position_barrier.py:update_p_min"]}
{"id": "C113", "title": "What the public attributes show", "statement": "After any calls and reads: the compiled component holds exactly what the attributes show; an attribute the class lacks raises AttributeError; gain, cost, targets and limits show the value of the last accepted update; model shows the model of the last binding attempted (of the last accepted one for objects); obj_id is the id in the model last tried, -1 for a task and ValueError for a barrier if there is none; target_q, q_min and q_max can be read exactly once they were given, set or filled in by a binding; the name, gain function, damping, safe-displacement gain, object name and type, limit type, collision margin and constraint flags given to the constructor are shown unchanged for ever.", "quantifier": "every constructible component, every attribute, every sequence of calls and reads", "why_tests_cant": "Ranges over all classes, attributes and histories, including rejected calls.", "anchors": ["mjinx/components/_base.py:vector_gain", "mjinx/components/_base.py:dim", "mjinx/components/tasks/_joint_task.py:target_q", "mjinx/components/barriers/_joint_barrier.py:q_min", "mjinx/components/barriers/_obj_barrier.py:obj_id", "mjinx/components/tasks/_obj_task.py:obj_id"]}
{"id": "C114", "title": "The fields of compiled components and problem data", "statement": "Each field of a compiled component holds what the attribute of the same name shows on the component, a component lacking the attribute lacks the field, and there are no other fields but the function of a user-defined class. Exactly dim, gain_fn, mask_idxs, lm_damping, obj_id, obj_type, limit_type_mask_idxs, collision_pairs, n_closest_pairs and hard_constraint are constants for JAX; all others can be traced and batched. Compiled problem data hold the model and velocity limits of the problem and, under the name of each registered component and no other name, these fields.", "quantifier": "every constructible component, every history of calls and reads, every attribute; every program and problem", "why_tests_cant": "Eleven classes by twenty-six attributes after arbitrary histories; a swapped or constant field goes unnoticed until something batches or replaces it.", "anchors": ["mjinx/components/_base.py:_build_component", "mjinx/components/_base.py:JaxComponent", "mjinx/problem.py:JaxProblemData", "mjinx/problem.py:compile"]}
{"id": "C115", "title": "Integration does not check lengths", "statement": "For a configuration of length nq, integrate accepts a velocity exactly if its number of entries suffices: any entry at all for hinge and slide joints, for a free joint a first linear velocity but not exactly two of the three, nothing for a ball joint. What it accepts gives a configuration of length nq. Additional entries of either array are ignored; on robots with hinge and slide joints missing entries repeat the last one; a ball joint for which no velocity is left turns by a third of a full turn about (1,1,1), whatever dt.", "quantifier": "every model, q, v of any length, dt", "why_tests_cant": "The repository's own test integrates a velocity of length 1 on five degrees of freedom and only looks at the shape; which lengths pass and what comes out depends on every joint list.", "anchors": ["mjinx/configuration/_model.py:integrate"]}
{"id": "C116", "title": "Rounding does not add up at joint limits", "statement": "If each velocity meets the conditions of the problem up to eps and each new hinge or slide position is off by at most rho, a joint barrier keeps positions within limits widened by (eps + rho/dt)/gain, however long the loop runs and however the rest of the problem changes; what is left of the slack after k steps is at least (1 - gain*dt)^k of it less (1 - (1 - gain*dt)^k)(eps + rho/dt)/gain. In single precision, with both operations of q + dt*v rounded to nearest, positions never leave limits widened by w if eps*dt + (B + w + 3 dt (V + eps))/2^24 + 3/2^150 <= gain*dt*w, where B and V bound joint and velocity limits.", "quantifier": "every model, sequence of problems with the joint barrier, sequence of configurations and velocities, tolerance, rounding error, dt and number of steps", "why_tests_cant": "A drift of one rounding per step shows after millions of steps or never; the bound is about loops of any length.", "anchors": ["mjinx/configuration/_model.py:integrate", "mjinx/components/barriers/_joint_barrier.py:JaxJointBarrier", "mjinx/solvers/_local_ik.py:solve_from_data"]}
{"id": "C117", "title": "What a finite time step costs", "statement": "A velocity chosen from the rates at the start of a step is held for dt. If, while it is held, the value of a component accelerates by at most M, then after k steps a barrier with gain a (a*dt <= 1) has at least the share r=(1-a*dt)^k of its first value less (1-r)(eps + M dt/2)/a, and the error of a hard constraint differs from r times its first value by at most that amount; so however long the loop runs a barrier is violated by at most (eps + M dt/2)/a. Joint barriers on robots with hinges and slides only have M = 0. A positive violation does occur even when every velocity meets the conditions exactly.", "quantifier": "every model, sequence of problems with the component, sequence of configurations and velocities, dt, gains, bound on the acceleration, tolerance and number of steps", "why_tests_cant": "A loop may run for any number of steps, and the worst curvature on the way is not at sampled configurations.", "anchors": ["mjinx/configuration/_model.py:integrate", "mjinx/solvers/_local_ik.py:solve_from_data", "mjinx/components/barriers/_obj_position_barrier.py:JaxPositionBarrier"]}
{"id": "C118", "title": "Jacobians of points", "statement": "geom_point_jacobian returns one row of six numbers per degree of freedom (linear velocity first, then angular), zero for degrees of freedom that do not carry the body; at the position of an object it equals the object's world-aligned Jacobian; for two points of a body the reported velocities satisfy v2 = v1 + omega x (p2-p1); a point fixed in the frame of an object moves with the reported velocity; rows of the self-collision Jacobian are normal times difference of the linear parts on both sides of the contact.", "quantifier": "every kinematic tree, body, point, velocity, simulator data and contact", "why_tests_cant": "Universal over trees, points and velocities; the tests compare one point of one model.", "anchors": ["mjinx/configuration/_collision.py:geom_point_jacobian", "mjinx/configuration/_model.py:geom_point_jacobian", "mjinx/components/barriers/_self_collision_barrier.py:JaxSelfCollisionBarrier"]}
{"id": "C119", "title": "How closely moving targets are followed", "statement": "While a control loop runs and the target of a task moves with speed at most s, the task's error after k steps is r = (1 - gain dt)^k of the initial error up to (1-r)(s + eps + M dt/2)/gain, where eps bounds how far the velocities miss the rate the task asks for and M bounds the acceleration of the error during a step; in the long run the lag is at most (s + eps + M dt/2)/gain from any start. Best velocities of undamped compatible problems have eps = 0; new targets of joint, position and centre-of-mass tasks shift the error exactly by their distance; joint tasks on robots of hinges and slides have M = 0.", "quantifier": "every program recompiled at every step, target sequence, start, step length with gain*dt <= 1, number of steps and tolerance", "why_tests_cant": "Universal over loops of any length and all target motions; tests run a few iterations at fixed targets.", "anchors": ["mjinx/components/tasks/_joint_task.py:update_target_q", "mjinx/components/tasks/_com_task.py:update_target_com", "mjinx/components/tasks/_obj_position_task.py:update_target_pos", "mjinx/solvers/_local_ik.py:solve_from_data", "mjinx/configuration/_model.py:integrate"]}
{"id": "C120", "title": "A batched control loop is one jitted control loop per lane", "statement": "Make the vmap template once, mark the places that will be assigned, and then in every turn assign stacks of N rows there, compile once, call the jitted vmapped solve on N configurations and integrate. For any number of turns this is N separate jitted control loops: lane i sees the data, and finds the velocities and configurations, of the loop that assigns row i of every stack; and when each of these loops runs so does the batched one. Batched loops over suitable tasks and joint barriers never fail, and with exact solutions each lane stays within the joint limits. In particular this holds for the README problem with one stack of poses per turn.", "quantifier": "every history of calls before the loop, number of turns and lanes, stacks of targets, robot, starts and step", "why_tests_cant": "Universal over histories, batch sizes, targets and loops of any length; tests use one batch and one call.", "anchors": ["mjinx/problem.py:set_vmap_dimension", "mjinx/problem.py:compile", "mjinx/solvers/_local_ik.py:solve", "mjinx/components/_base.py:jax_component", "mjinx/configuration/_model.py:integrate"]}
{"id": "C121", "title": "Batched loops with any components, and the batched examples", "statement": "Set up a problem with components of any kind, make any calls, make the vmap template, and in every turn assign stacks of targets (one row per lane, of the task's own size) to the same tasks. Then the template can be made and marked, every assignment is accepted, and either the whole batched loop runs or, in some lane and turn, solve divides by zero because a barrier does not depend on the velocity. Without such barriers it always runs, and with exact solutions every lane that starts within the joint limits stays within them. This covers the problems of examples/go2_squat.py, cassie_alip.py, g1_heart.py and local_ik_vmapped_output.py for all robots with the named objects, all gains, costs, targets, batch sizes and numbers of turns.", "quantifier": "every robot, list of components, calls before the loop, stacks of targets, number of lanes and turns, starts and step", "why_tests_cant": "Universal over component lists, histories, batch sizes, targets and loops of any length; running one example shows one run.", "anchors": ["examples/go2_squat.py:problem", "examples/cassie_alip.py:problem", "examples/g1_heart.py:problem", "examples/local_ik_vmapped_output.py:problem", "mjinx/problem.py:set_vmap_dimension", "mjinx/solvers/_local_ik.py:solve", "mjinx/components/tasks/_com_task.py:update_target_com", "mjinx/components/tasks/_obj_frame_task.py:update_target_frame"]}
{"id": "C122", "title": "Batched global IK, repeated solves, and one problem for all lanes", "statement": "A vmapped, jitted loop around the global solver, with any number of solve calls per turn at the same configuration, is one loop per lane: every lane of a run is a run of the loop with that lane's rows, and the batched loop runs if all of these do. With tasks and barriers of any kind it always runs; with a constraint it never gets through a turn. Repeated solve calls at the same configuration all use the gradient there: the result is what the optimizer answers when fed that gradient again and again, so for an optimizer without memory the repetitions change nothing. With one problem for all lanes (in_axes None) every lane runs the loop of a single robot, for both solvers. This covers examples/global_ik_vmapped_output.py, global_ik_vmapped_input.py and local_ik_vmapped_input.py.", "quantifier": "every robot, list of components, calls before the loop, targets, optimizer, number of lanes, turns and calls per turn, starts and solver data", "why_tests_cant": "Universal over optimizers, component lists, histories, batch sizes and loops of any length; running one example shows one run.", "anchors": ["examples/global_ik_vmapped_output.py:problem", "examples/global_ik_vmapped_input.py:problem", "examples/local_ik_vmapped_input.py:problem", "mjinx/solvers/_global_ik.py:solve", "mjinx/solvers/_global_ik.py:loss_fn", "mjinx/problem.py:set_vmap_dimension"]}
{"id": "C123", "title": "The frame error is the twist that leads to the target", "statement": "The six numbers a FrameTask computes are a linear and an angular velocity in the frame of the object such that moving with them, held constant, for one unit of time carries the object from its pose exactly onto the target pose. There is one such motion, and it turns by at most a half turn. This holds whenever the two orientations are equal, differ by exactly a half turn, or differ by an angle outside the two small ranges where jaxlie's logarithm switches to an approximation.", "quantifier": "every object, pose, target and switch-over threshold", "why_tests_cant": "A statement about the solutions of a differential equation for a continuum of poses and targets; tests compare a few values.", "anchors": ["mjinx/components/tasks/_obj_frame_task.py:JaxFrameTask.__call__", "mjinx/components/tasks/_obj_task.py:get_frame"]}
{"id": "C124", "title": "Where the logarithm is approximated the frame error stays close to an exact twist", "statement": "For every pose and target, also in the two ranges where jaxlie's logarithm switches to an approximation, the six numbers a FrameTask computes are close to a twist that carries the object exactly onto its target in one unit of time and turns by at most a half turn. With switch-over threshold eps, the angular part is off by at most 2 eps^2 for close orientations and by at most 3 eps near half turns, and the linear part by at most this times the distance to the target; elsewhere both are exact.", "quantifier": "every object, pose, target and switch-over threshold up to one half", "why_tests_cant": "A quantitative bound over a continuum of poses and targets and over all thresholds; the ranges concerned are so small that random tests never hit them.", "anchors": ["mjinx/components/tasks/_obj_frame_task.py:JaxFrameTask.__call__", "mjinx/components/tasks/_obj_task.py:get_frame"]}
{"id": "C125", "title": "The frame error is the only twist to the target and shrinks in proportion", "statement": "Of all twists that carry the object from its pose onto the target pose in one unit of time, at most one turns by less than a half turn, and that one is what a FrameTask computes. If the object moves with the computed twist, then after the fraction s of the motion the task computes 1 - s times what it computed at the start. Both hold wherever jaxlie's logarithm uses no approximation.", "quantifier": "every object, pose, target, switch-over threshold, competing twist and fraction of the motion", "why_tests_cant": "Uniqueness ranges over all twists, and the decay over all poses along a continuous motion.", "anchors": ["mjinx/components/tasks/_obj_frame_task.py:JaxFrameTask.__call__", "mjinx/components/tasks/_obj_task.py:get_frame"]}
{"id": "C126", "title": "A frame task alone does not move its frame away from the target", "statement": "If a FrameTask is the only component of a problem, all its axes have the same gain, and standing still is allowed, then moving with the best velocity of the local solver does not, to first order, increase the squared error of the task.", "quantifier": "every robot, configuration, object, target and gain", "why_tests_cant": "The direction of the error along the best velocity depends on the pose and the target; the tests look at single configurations and do not follow the motion.", "anchors": ["mjinx/components/tasks/_obj_frame_task.py:JaxFrameTask.compute_jacobian", "mjinx/solvers/_local_ik.py:LocalIKSolver"]}
{"id": "C127", "title": "A task with an automatic Jacobian alone does not move away from its target", "statement": "If a task whose Jacobian is computed by differentiation (position, centre of mass, custom) is the only component of a problem, all its axes have the same gain, and standing still is allowed, then moving with the best velocity of the local solver does not, to first order, increase the squared error of the task.", "quantifier": "every robot, joint types, configuration, target, gain and task function", "why_tests_cant": "The direction of the error along the best velocity depends on the mixture of joint types and on the configuration; the tests look at single configurations of robots with few joints and do not follow the motion.", "anchors": ["mjinx/configuration/_lie.py:jac_dq2v", "mjinx/components/_base.py:JaxComponent.compute_jacobian", "mjinx/solvers/_local_ik.py:LocalIKSolver"]}
{"id": "C128", "title": "A barrier with an automatic Jacobian does not let its limit be crossed", "statement": "At a configuration where an entry of a position or custom barrier is exactly at its limit, moving with the velocity the local solver returns does not, to first order, cross the limit.", "quantifier": "every robot, joint types, configuration, problem and barrier with automatic Jacobian", "why_tests_cant": "Whether a limit is crossed depends on the mixture of joint types and on which velocity the other components ask for; the tests look at values of barriers, not at the motion.", "anchors": ["mjinx/components/barriers/_obj_position_barrier.py:JaxPositionBarrier", "mjinx/configuration/_lie.py:jac_dq2v", "mjinx/components/_base.py:JaxComponent.compute_jacobian", "mjinx/solvers/_local_ik.py:LocalIKSolver"]}
{"id": "C129", "title": "A hard constraint with an automatic Jacobian that is met stays met", "statement": "At a configuration where an entry of a hard custom constraint is exactly zero, moving with the velocity the local solver returns leaves that entry zero to first order.", "quantifier": "every robot, joint types, configuration, problem and hard custom constraint", "why_tests_cant": "Whether a constraint slips depends on the mixture of joint types and on what the other components ask for; the tests look at values of constraints, not at the motion.", "anchors": ["mjinx/components/constraints/_base.py:JaxConstraint", "mjinx/configuration/_lie.py:jac_dq2v", "mjinx/components/_base.py:JaxComponent.compute_jacobian", "mjinx/solvers/_local_ik.py:LocalIKSolver"]}
