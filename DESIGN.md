# Formal model of mjinx in Rocq (Coq 8.16.1)

## Approach

The Python sources in `/repo/mjinx` are modelled as total Gallina functions, function
by function; every definition cites the lines it models.

* Exceptions are values (`res A = Ok a | Err e`). Mutation is explicit state passing:
  what was written *before* a raise stays visible, as in Python.
* Numbers are exact reals (`R` of the standard library). Rounding, overflow and float32
  are not modelled, except as tolerances (C103, C116) and in the single precision
  statement of C116. Silent production of NaN or infinity (division by zero) is an
  explicit error value `NonFinite`.
* Arrays are a shape with row-major data (`tensor`); vectors and matrices in the numeric
  part are lists and lists of lists.
* Libraries outside the repository (MuJoCo and mjx, JAX, jaxlie, jaxopt/OSQP, optax,
  dm_control) are modelled by the part of their documented behaviour that mjinx relies
  on, or are arguments of the theorems. See "Trusted base".
* Definitions of the model are in files without prefix (`Component.v`, `Problem.v`, ...).
  The vocabulary the theorems are stated in is in `Spec*.v`. Proofs are in `*Facts*.v`
  and `*Thms*.v`, concrete cases in `*Cases*.v` and `Witness.v`.
* `Props*.v` contain only the property theorems, each closed by one `exact`, the
  examples meeting their hypotheses, and `Print Assumptions`.
* A theorem named `..._refuted` proves that the property as listed fails for the code,
  with a witness reachable by API calls. A theorem named `..._partial` proves the part
  of the property that does hold; the comment above it says what is missing.

## Plan per property

The theorems of each property are listed in `MANIFEST.json`; they are in the files `Props*.v`.

| id | property | status | what is modelled and how it is proved |
|---|---|---|---|
| C01 | Compiled component is never stale | proved | Component.v state machine with explicit `modified` flag and cache; invariant (flag clear -> cache = build of current attributes) by induction over an arbitrary list of operations, for every kind. |
| C02 | Reading a compiled component is idempotent and has no visible effect | proved | Same state machine; equality of all observers before/after the read. |
| C03 | jax_component availability | proved | Case analysis of the getter against an independent `available` predicate. |
| C04 | Gain normalisation | proved | Function-level theorem, all tensors. |
| C05 | Task cost normalisation | proved | Function-level theorem, all tensors; plus W e entrywise. |
| C06 | Soft constraint cost normalisation | proved | Function-level theorem, all tensors. |
| C07 | Mask semantics | proved | Characterisation: sorted, membership iff non-zero entry. |
| C08 | copy_and_set replaces exactly the named fields | proved | JAX component as finite field map; algebraic laws over update sequences. |
| C09 | Problem is an insertion-ordered map with unique names | proved | World = heap of components + list of problems; refinement to an ordered association list, induction over histories. |
| C10 | Failed add leaves the problem unchanged | proved | Same world model, error branch. |
| C11 | Typed lookup | proved | Same world model. |
| C12 | Velocity limits always have length nv | proved | Invariant over histories. |
| C13 | Compile is a faithful snapshot | proved | Same world model. |
| C14 | Sharing a component between problems | partial | Refuted with concrete two-problem histories; positive partial theorem when both problems share one model. |
| C15 | vmap template keeps structure | partial | Compiled data as a pytree of static and array leaves; proved except the order of components, which is refuted (keys come back sorted). |
| C16 | Position and velocity indices of joint components pair up | proved | Joint masks over every well-formed joint list, induction. |
| C17 | Joint mask length is validated | proved | Same. |
| C18 | Joint task error and Jacobian agree with integration | proved | Real vectors; uses C16 and model of mjx integrate. |
| C19 | Joint barrier value and Jacobian agree with integration | proved | Same. |
| C20 | Joint limits are forward invariant in closed loop | proved | Real analysis by induction over the steps of an arbitrary closed-loop run; also for problems built by arbitrary programs. |
| C21 | Joint task converges | proved | Induction over steps. |
| C22 | Default joint limits come from the model | partial | Unmasked: proved. Masked default: refuted (always raises). |
| C23 | Joint target consistency | partial | Invariant over histories. |
| C24 | Component shapes are consistent | proved | Per-kind theorem and theorem over all programs that build a problem; automatic differentiation is an argument with a shape contract. |
| C25 | Masks of object tasks are validated or harmless | partial | Refuted for long masks of position and frame components, proved for centre-of-mass tasks. Exact form: gathering with a clamped index is described for every index list, giving the coordinates read by a mask of any length and the condition under which only selected ones are read (iff, both directions, data built for any model). |
| C26 | Object components bind to the named object | proved | Function-level theorem over name tables. |
| C27 | A failed re-binding does not corrupt an object component | partial | Refuted with witness; exact effect on tasks and barriers proved. |
| C28 | Position and CoM task error | proved | Function-level theorems. |
| C29 | Position barrier semantics per limit type | proved | Function-level theorem. |
| C30 | Position limit updates | proved | Function-level + history. |
| C31 | Position limit type parsing | proved | All strings. |
| C32 | Frame task target conversion | proved | Function-level theorem. |
| C33 | Frame task error vanishes exactly at the target | partial | jaxlie's SO3/SE3 algebra is modelled (Rot.v): the error is zero iff the rotation matrices and positions agree; invariance under a common rigid motion except at half turns, where it is refuted. |
| C34 | Frame task Jacobian is the derivative of its error | partial | The Jacobian is compared with the derivative of the error along motions of the frame (`derivable_pt_lim`). The code uses target^-1 frame^-1 instead of target^-1 frame: refuted; exact size of the defect for unrotated frames, and the part that holds there. |
| C35 | Collision pair generation is sound and complete | proved | Set characterisation, all models. |
| C36 | Collision pairs do not depend on listing order | proved | Corollary of C35. |
| C37 | Unknown collision bodies are rejected | partial | Refuted with witness; the pairs are proved for every kind of reference (unknown names stand for number -1, negative numbers count from the end), and ids out of range and other types are proved to raise. |
| C38 | Self-collision value is the n smallest distances | partial | top_k modelled by sorting; proved. |
| C39 | Self-collision Jacobian belongs to the reported contact | partial | Refuted with witness; partial for single homogeneous group. |
| C40 | Re-binding a self-collision barrier adapts to the new model | partial | Refuted with witness; proved for barriers given bodies and rows, and what a default barrier keeps from its first model is proved exactly. |
| C41 | Geom grouping is a partition | proved | Induction over pair list. |
| C42 | Contacts stay attached to their geoms | proved | Induction; collision functions as oracle. |
| C43 | Local IK objective is the weighted least-squares task objective | proved | Linear algebra over lists of reals, induction over components. |
| C44 | Local IK Hessian is symmetric positive semidefinite | proved | Same. |
| C45 | Barrier rows encode the CBF condition | proved | Same. |
| C46 | Velocity limits are enforced | partial | Refuted. Exact form: the feasible velocities are the box between minus the limits, which is the box of the limits iff they are symmetric. |
| C47 | Hard constraints become equalities | proved | Same. |
| C48 | Inactive constraints have no effect | partial | Refuted. |
| C49 | Component order is irrelevant for local IK | proved | Permutation induction. |
| C50 | Local IK data are always finite | partial | Refuted (zero barrier Jacobian gives 0/0); partial for non-zero Jacobians. |
| C51 | Solver input checks and history independence | proved | Function-level. |
| C52 | Optimality of the local IK step | proved | KKT sufficiency for convex QP. |
| C53 | Equality constraint decay | proved | Induction over steps. |
| C54 | Model equality constraint dimension | proved | Function-level, all lists. |
| C55 | Global IK loss | proved | Real analysis with ln. |
| C56 | Global IK honours task costs | partial | Refuted. |
| C57 | Global IK penalty prevents violation | partial | Real analysis with ln: bounded and locally constant outside the interval, refuted; monotone inside. |
| C58 | Global IK solution consistency | partial | Proved for scalar joints; the length claim holds exactly for them. |
| C59 | Joint zero configuration | partial | Induction over joints. |
| C60 | Joint difference | partial | Partial (scalar joints) and refuted (orientation). |
| C61 | Velocity-to-configuration-rate matrix | partial | Structure proved; scale refuted (factor 2). |
| C62 | Skew matrix and attitude Jacobian | proved | nsatz/ring. |
| C63 | Frame Jacobians | proved | Tree accumulation modelled; proved. |
| C64 | Relative transforms | partial | Refuted. Exact form: poses act on points; the product of the two world poses is the change of frame iff the destination pose is its own inverse, and the self-inverse unit poses are classified by explicit coordinates. |
| C65 | Integration | proved | Model of mjx integrate; proved. |
| C66 | Configuration limit rows | partial | Proved for floats and vectors; exactly these limits work; integer limit refuted. |
| C67 | Centre-of-mass computation | proved | Tree induction. |
| C68 | Marker bookkeeping | proved | Induction over call list. |
| C69 | Marker colour interpolation | partial | Refuted; exact (reversed) colours proved. |
| C70 | Marker rotation matrix | proved | ring. |
| C71 | High-level body removal | proved | List/tree theorem, strings. |
| C72 | Transparency is applied once | partial | Refuted for geoms sharing a default class; exact condition for fading once. |
| C73 | Marker drawing does not clobber the scene | partial | Refuted. |
| C74 | Legacy Model object is usable | partial | Refuted. |
| C75 | mask and mask_idxs agree | partial | Invariant over all histories for every component but the equality constraint; exact condition for equality constraints, refuted when re-bound after a read. |
| C76 | Automatic Jacobians are derivatives along the motion | partial | Derivatives along motions on the configuration manifold; right for hinge and slide joints, twice too large on ball and free joints (refuted), zero for custom tasks on the centre of mass (refuted). |
| C77 | jit does not change the problem | proved | Flattening and rebuilding the data changes only the order of components; equal quadratic programmes up to row order and equal losses. |
| C78 | Assets of the combined model | partial | String and tree functions; every asset is supplied with the content of the first file of its name; refuted for equal names in different directories. |
| C79 | Recording | proved | Induction over update calls: the recorded frames, in order; closing and saving. |
| C80 | Batch layout | proved | Per-environment slices of batched data. |
| C81 | Settings are independent registers | proved | Each setting of a component (gain, cost, target, position limits, joint limits, fixed ones) equals the last value a successful call of its own setter gave it, over arbitrary histories; and that value is what is compiled. |
| C82 | Lanes of a batch | proved | Batched settings (arrays with a leading axis) against the same program with one row per setting: the sampled tree of the batch is the compiled tree of the row program, by a simulation between the two worlds and a description of the template after assignments. A limit that the barrier type excludes is not stored, so it is not a batched setting. |
| C83 | The local solver returns a best admissible velocity | proved | Admissibility and cost are written from the documentation in SpecSolve.v, without the assembled matrices. Existence: continuity of the quadratic on the compact velocity box (CompactFacts.v, Heine-Borel through Coquelicot). The result of the solver is tied to it by the equivalence of minimisers of the assembled programme and best velocities. The QP solver is an argument that is assumed to return a minimiser of the programme it is given, when there is one. |
| C84 | Uniqueness of the local solution | proved | The cost is a sum of squares of affine functions; two minimisers have equal weighted images, so an injective weighted Jacobian or a positive multiple of |v|^2 forces equality. A problem without such a component is shown to have several best velocities. |
| C85 | Only ratios of costs matter | proved | Every cost is quadratic in the weight, so the total is multiplied by the square of the factor; the API calls are followed through compile. |
| C86 | A task of cost zero has no influence | proved | The compiled problem after cost = 0 has the same list of components as after removal, plus one of weight zero, whose cost is zero at every velocity and which is neither a barrier nor a hard constraint. |
| C87 | The closed-loop error never grows | proved | Energy = sum of g/2 |W e|^2. Comparing the best velocity v with its multiples s v (admissible by convexity, 0 <= s <= 1) bounds the inner products of errors and task velocities; expanding the energy after a step gives the claim. For posture problems the step of the model is evaluated exactly and the solver's velocity keeps the limits; induction over steps. A counterexample with g dt = 3. |
| C88 | The error never grows in continuous time | proved | The derivative of the energy is the inner product bounded in C87, hence not positive; mean value theorem. Components qualify by the chain rule. |
| C89 | Barriers and hard constraints in continuous time | proved | The barrier inequality and the equality give differential inequalities; comparison with exp through the mean value theorem. |
| C90 | A mask drops axes and nothing else | proved | `jx_gather` with a subset of the indices; for automatic Jacobians uniqueness of the derivative, entry by entry; the weighted norm over a matrix supported on the selected axes is the norm over its block. |
| C91 | Changing settings does not re-trace a jitted solver | proved | `signature` of the compiled object tree (static fields by value, arrays by shape, dictionaries by sorted keys); the settings calls leave model, dimension, mask, object and pair data alone, so two compilations differ at most in the shapes of targets and limits; lifted to programs through the relation between worlds. |
| C92 | Exactly which components and settings can be used | proved | `suits` says in terms of the settings and the model's tables what is needed; binding lemmas for each class give `usable` iff `suits`; `setup` programs are run symbolically; loop calls keep model, dimension and indices (C91's relation), so `complete` reduces to the present weights; solving uses the shapes theorem of C24 and the non-zero Jacobian of joint barriers; the two documented programs are instances. |
| C93 | A vmapped control loop is one control loop per lane | proved | Composition of the lane theorem of C82, of C92 (loop calls always compile; row calls are loop calls) and of the independence of the component order (C77): acceptance of a stack follows from the class of the component being kept by loop calls. |
| C94 | The documented control loop runs for ever and stays within the joint limits | proved | A control loop is an inductive relation over turns (calls, compile, solve, integrate). Induction over the turns: C92 gives that each turn compiles and assembles; the compiled joint barriers are traced back to the components (limits and gains unchanged by loop calls), C83 gives feasibility and the best velocity, C48's motion lemma the next slack. Exactness of the solver is assumed only in the turns of the trace. |
| C95 | The global inverse-kinematics loop runs for ever, and posture descent contracts | proved | The loop is an inductive relation over turns (calls, compile, one solver step). C92 gives that each turn compiles; `evaluates` states on the user's components what makes them evaluable (dimension of custom functions, collision table, equality rows) and is carried through binding and compilation to the compiled ones, so C55's loss exists; a gradient that traces then exists. Posture descent: the loss is a weighted sum of squares whose partial derivatives are computed explicitly; induction over the steps; limits of powers give the convergence condition. |
| C96 | A control loop with any components runs, or stops only because a barrier is idle | proved | Extends C94's loop to components of every kind. `evaluates` (C95) is carried to the compiled components, so C92's `loop_solves` applies in each turn: the QP exists, or a barrier's Jacobian has norm zero (safe-displacement division by zero) and the solve is non-finite. A joint barrier on at least one joint has a non-zero Jacobian at every configuration. Safety is the induction of C94 with `admissible` available either by hypothesis or from the zero velocity. The example's six components are shown to be suitable by computing each constructor. |
| C97 | Goals that can all be met at once are met exactly, whatever their weights | proved | `cost_of` (the documented objective, C43) is zero exactly where an undamped goal is met, and never negative; `best` compares it with that of a compatible velocity. Conversely, along the ray s v through a velocity that meets the goals the cost is (1-s)^2 A/2 + s^2 M/2, so a best one has M = 0: no damping. Decay in continuous time reuses the comparison lemma of C89 for hard constraints, steps are an induction. Numbers: one hinge with and without damping. |
| C98 | More damping never lengthens the step | proved | The documented objective (`cost_of`, C43) is the undamped objective plus half the damping times |v|^2 (times the squared weighted error for tasks). Compare each problem's best velocity with the other's; add the two inequalities. Program level: assigning the attribute changes one compiled component only (`call_compiled`). Numbers: one hinge, damping 0 and 1. |
| C99 | Gains and velocity limits set the speed: scaling them all scales the solution | proved | `sped_problem s` multiplies gains and limits; every cost at s v is s^2 times the cost at v and the admissible sets correspond, so `best` does; inverse by 1/s. Program level: the calls in `speed_up` compile to `sped_problem s` of the old problem (each gain assignment changes one component, then two limit assignments). |
| C100 | A further restriction can only cost, and one that does not bind changes nothing | proved | `extended` appends; admissibility of the extension is admissibility plus obeying the new component, and a restriction has zero cost. Idle barrier: if a better w existed outside, a point a little of the way from v to w is still inside (strictness) and better (convexity, nonnegative weights). Limits: set inclusion. Program level: `add_compiled`. |
| C101 | A higher cost serves its component better, and a high enough one serves it as well as wanted | proved | `rescaled s` multiplies cost_of by s^2; exchange argument with the two best velocities; for the bound compare with the velocity that meets the goal. Program level uses C85's compilation of an assigned cost array. Numbers: two opposed joint tasks on one hinge. |
| C102 | The same demand written in two ways gives the same solutions | proved | Both forms have equal admissible sets and equal `cost_of` at every velocity; the soft-constraint form and the task form compile to components related by `as_task`. Twice: costs add, a^2 + b^2 = s^2. Numbers: factors 3 and 4. |
| C103 | A solver tolerance widens the limits by the tolerance divided by the gain, and no more | proved | `residual` (rows of the assembled QP) and `nearly` (documented conditions up to eps) are defined separately and proved equivalent by the block structure of C43's assembly. The discrete bound is an induction on k for s' >= (1 - a dt) s - eps dt; the continuous one applies the growth lemma of C95 to h + eps/gain. The loop version repeats C94's induction with widened limits. |
| C104 | A nearly best velocity is close to the best one | proved | Along the segment from v to w the objective is exactly (1-t) x + t y - t (1-t)/2 D, D the sum of `apart`; v is best, so the value is at least x for every t; t = (D - 2(y-x)) / (2D) gives a contradiction if D > 2(y - x). |
| C105 | Damping bounds the speed, also at singularities | proved | C104 with w = 0; per task |A|^2 + |A + e|^2 >= |e|^2 / 2 leaves E (2 lam |v|^2 - 1/2) <= 0 summed over the tasks, with E > 0. |
| C106 | Moving a target a little moves the solution a little | proved | C104's gap inequality for both problems, added up; all cost terms cancel except <W J (v' - v), W (g - g')>, which is split with |a - b/2|^2 >= 0. That the call changes only the target of the compiled task, and that its Jacobian does not depend on the target, is proved for the three kinds of task (for automatic differentiation: by uniqueness of the derivative of a function shifted by a constant). |
| C107 | A task may be split into tasks over fewer axes | proved | C90 gives value and Jacobian of each part as rows of the whole; a weight that is block diagonal along the partition makes the squared weighted error the sum over the blocks (induction over the parts, permutation of the axes). |
| C108 | A position barrier may be split by side and axis | proved | The value of the barrier is written as p - lo followed by hi - p; a part with limit type and mask selects rows of it. Jacobians by uniqueness of the derivative. The barrier condition is a conjunction over rows, so covering the rows is enough. Witness: a box round the tip of a crank split into its lower and upper walls; counterexample: the same box split by axes. |
| C109 | When changing a list or array after passing it matters | proved | Alias.v puts a memory of caller-owned objects beside the world of components and problems, with a table of which component keeps which object; a write shows in the attribute that keeps the object without setting the modified flag. By induction over programs the table only contains objects that were handed over, which gives the by-value theorem. Every operation except binding commutes with forgetting the contents of kept lists, which gives the delay until the next binding. Counterexample: the mask of a joint barrier changed between construction and add_component. |
| C110 | The order in which components are registered does not matter | proved | The loss loop is shown equal to the sum of what each component adds alone, by induction over the component list; permutation and splitting follow. Optimizer steps agree because differentiation depends on function values only (hypothesis reads_values, met by the derivative itself). For programs, the result of setup (C92) is determined component by component, so permuted setups compile to permuted lists, to which C49 applies. |
| C111 | Looking at a component does not change it | proved | Every public attribute is modelled by its getter (Read.v), a method that may write. A simulation relates the component that was looked at to the one that was not: they are equal, or differ in a mask already filled in with ones. It is kept by every call and every look, for which the classes whose mask the constructor or binding fixes need an invariant. |
| C112 | When a component counts as unmodified | proved | Every method either leaves the component alone or sets the flag; with the invariant that a clean component has its mask, a step from a clean component keeps it clean exactly if it is quiet. Induction on the uses from the right. |
| C113 | What the public attributes show | proved | Compiled values by the characterisation of the compiled component (C03); settings by the register lemmas of C81 and C111; model, object id and readability by one step per call and induction over the calls. Constructor arguments by the start lemmas of C81 and the settings no call changes. |
| C114 | The fields of compiled components and problem data | proved | A table pairs each attribute with the field of the same name (SpecFields.v). From the characterisations of the compiled component (C113) and of its class (C81), by cases on class and attribute; for problem data by the snapshot theorem C13 and uniqueness of names. |
| C115 | Integration does not check lengths | proved | mjx's integrate_pos with clipped slices and clamped indices (Conf.v). By induction over the joint list with running addresses; the result segment by segment. |
| C116 | Rounding does not add up at joint limits | proved | Loops of which only tolerances are known (SpecRound.v). One step of the slack of a joint barrier, then induction on steps; rounding to nearest in binary32 from Flocq's definition of round (no axioms), with its error bound for the two operations of q + dt*v. |
| C117 | What a finite time step costs | proved | Loops whose values have bounded acceleration within each step (SpecStep.v). Mean value theorem for one step, then induction on steps; sufficient conditions for the bound; an endless swing that leaves its wall at every other step. |
| C118 | Jacobians of points | proved | geom_point_jacobian over body-tree masks; rows computed exactly, then rigid-body relation by linearity and the velocity of carried points by differentiating position plus orientation times fixed coordinates. |
| C119 | How closely moving targets are followed | proved | Loops in which the task is recompiled with a new target at every step (SpecTrack.v). First-order Taylor bound per step as in C117, the goal-compatibility theorem of C97 for eps = 0, then induction on steps; a hinge following targets 0, 1, 2, ... attains the bound. |
| C120 | A batched control loop is one jitted control loop per lane | proved | The batched loop and the loop of one lane are separate inductive relations (SpecLanes.v). A lockstep relation between the batched program and its lanes (same flags, attributes equal up to taking row i at marked places) is kept by setters, rebuilding and compiling; induction on turns. Totality and joint limits then follow lane by lane as in C94. |
| C121 | Batched loops with any components, and the batched examples | proved | Stacks of the right shape are accepted by every setter whatever was assigned before (case analysis per task class), which gives the hypotheses of C120; outcomes and limits then come from the loop theorems of C96, lane by lane. The examples are instances: their constructor calls give components that suit the robot. |
| C122 | Batched global IK, repeated solves, and one problem for all lanes | proved | The induction over turns of C120 with the global solver in place of the local one; the calls of a turn are an inner induction. The loss of the jitted data is that of the compiled data (C77), and suitable components have one (C95). Repetitions: induction on their number. One problem for all lanes is the template None, of which every lane gets the whole. |
| C123 | The frame error is the twist that leads to the target | proved | The motion is specified by its differential equation. Uniqueness: the orientation times the inverse of Rodrigues' formula has derivative zero, the position minus its closed form as well. The logarithm is angle times axis (arctangent of the half angle), and the coefficients of its translation part invert those of the closed form, by half-angle formulas. |
| C124 | Where the logarithm is approximated the frame error stays close to an exact twist | proved | Both the computed and the exact error are an angle times the same axis, and their translation parts differ only along two orthogonal directions. The angles and coefficients are compared by Taylor bounds for atan and x cot x, proved by monotonicity of derivatives (NearFacts.v); the exact twist comes from C123 with a smaller threshold. |
| C125 | The frame error is the only twist to the target and shrinks in proportion | proved | By the closed form of motions from C123: equal end orientations give equal angle and axis (quaternions up to sign, cosine injective), and the translation map is an injective linear map. The remaining part of a motion is a motion with scaled velocities (chain rule), so uniqueness gives the decay. |
| C126 | A frame task alone does not move its frame away from the target | partial | Refuted by a hinge at (3/2, 0, 0) with a body at (1, 0, 0): the Jacobian written by hand in the task is off by the cross product of position and angular velocity (C34), the cost is a quadratic in one variable with minimum 2/3, and the squared error grows at that rate. Proved in part: where the reported rates are right, comparing the best velocity with shorter ones bounds the derivative of the weighted squared error (as in C87); C34 says for which poses the rates are right. |
| C127 | A task with an automatic Jacobian alone does not move away from its target | partial | Refuted by a slide joint with a rod on a ball joint: automatic Jacobians count the turning of ball joints twice (C76) but the sliding once, so the velocity that meets the task exactly by the Jacobian increases the squared error at rate 12/7. Proved in part: on robots of hinges and slides the rates are right (C76), and for velocities that only turn balls they are all doubled (C76); in both cases comparing the best velocity with shorter ones bounds the derivative of the weighted squared error (as in C126). |
| C128 | A barrier with an automatic Jacobian does not let its limit be crossed | partial | Refuted by the crane of C127 with a barrier at its limit: the barrier row counts the turning of the ball joint twice (C76), so the velocity that meets the task exactly satisfies the row while the coordinate falls at rate 10/7. Proved in part: the row at a zero entry says that the entry of J v is not negative, and J v is the rate (robots of hinges and slides) or twice the rate (velocities that only turn) by C76. On every robot the motion with the turning of ball and free joints doubled does what is asked (DoubleThms.v), again by C76. |
| C129 | A hard constraint with an automatic Jacobian that is met stays met | partial | Refuted by the crane of C127 with a hard custom constraint that is met: the constraint row counts the turning of the ball joint twice (C76), so the velocity that satisfies the row exactly moves the constrained coordinate at rate -24/7. Proved in part: the row at a zero entry says that the entry of J v is zero, and J v is the rate (robots of hinges and slides) or twice the rate (velocities that only turn) by C76. On every robot the motion with the turning of ball and free joints doubled does what is asked (DoubleThms.v), again by C76. |

## What is modelled and what is not

| source (in `/repo/mjinx`) | model |
|---|---|
| `typing.py` | `Typing.v`: array or number to tensor, collision bodies and pairs, `PositionLimitType.from_str` for all strings |
| `components/_base.py` | `Component.v`: constructor, gain, masks, binding, `jax_component` with cache and modified flag. `Read.v`: the getters of all public attributes. `JaxTree.v`: `copy_and_set`. `JaxComponents.v`: automatic Jacobians |
| `components/tasks/*.py`, `barriers/*.py`, `constraints/*.py` | `Component.v`: constructors, setters, `update_model`, compiled fields, all eight concrete classes and user-defined subclasses. `JaxComponents.v`: `__call__`, `compute_jacobian` |
| `problem.py` | `Problem.v`: a heap of components shared by several problems, every public method. `JaxTree.v`: `set_vmap_dimension` |
| `solvers/_base.py`, `_local_ik.py` | `LocalIK.v`: assembly of P, c, A, b, G, h, `solve`, `solve_from_data`, `init` |
| `solvers/_global_ik.py` | `GlobalIK.v`: loss, step, `init` |
| `configuration/_lie.py` | `Conf.v`: zero configuration, difference, skew matrix, attitude Jacobian, rate matrix |
| `configuration/_model.py` | `FrameJac.v`: object Jacobians; `Conf.v`: transforms, integration, limits; `JaxComponents.v`: `update` |
| `configuration/_collision.py` | `Collide.v`: grouping, ordering, contacts; `CollisionPairs.v`: generation of pairs |
| `visualize.py` | `Visualize.v`: markers, scenes, recording, XML editing, assets, prefixes, colours |
| `model.py` | `Legacy.v`: importing, constructing, `update` |
| lists and arrays of the caller | `Alias.v`: which arguments are copied and which are kept by reference, in-place changes |
| `examples/*.py` | the problems they set up and their control loops, with arbitrary targets: local_ik, cassie_squat, global_ik (C92, C95, C96), go2_squat, cassie_alip, g1_heart, local_ik_vmapped_output (C121), local_ik_vmapped_input, global_ik_vmapped_input and global_ik_vmapped_output (C122). Not modelled: how targets are computed, drawing, timing |

Not modelled, and where the difference could matter:

* floating-point rounding and the numerical accuracy of OSQP and of optax, except that
  C103 - C105, C116, C117 and C119 say what is left of the claims up to given tolerances;
* the inside of mjx kinematics, of the collision functions and of automatic
  differentiation (see the next section);
* batched (vmapped) targets inside `__call__`: there a target is a plain vector. The
  setters and the compiled fields do treat arrays of every rank;
* in-place changes of an SE3 object or an mjx model that the user passed before (other
  lists and arrays of the caller are modelled in `Alias.v`);
* string formatting of error messages, warnings, logging, docstrings, type annotations;
* threads; opening of windows; parsing and printing of XML; file names other than the
  lookup described in `Visualize.v`.

## Trusted base

* Coq 8.16.1's kernel, and for the concrete cases its virtual machine (`vm_compute`).
* The standard library with the axioms listed at the end. Coquelicot is used in five
  proof files (`TwistFacts.v`, `GlobalFacts2.v`, `DerivThms2.v`, `GSumFacts.v` for derivatives,
  `CompactFacts.v` for compactness), and Flocq for rounding (`SpecRound.v`, `RoundFacts.v`
  and after); they add no axioms.
* The reading of the Python sources recorded in the comment of each definition. As a
  check on it, `RepoTests.v` replays the assertions of the repository's unit tests
  (`/repo/tests/unit_tests`) on the model: constructors, setters, masks, built components,
  values and Jacobians, self-collision pairs, problems, solvers, configuration helpers and
  collision grouping. These examples are tests and count for no property. Left out are
  assertions about mjx itself (poses of an XML model, distances of spheres and boxes,
  differentiability) and about the class of returned objects. Writing it found one
  disagreement, the lengths accepted by `integrate`, which was corrected (C115).
* The library models and library hypotheses of the next two lists.

### Library behaviour written into the model

* mjx model and data (`Mjx.v`): the fields mjinx reads; sizes and addresses of the four
  joint types (predicate `wf_joints`); `name2id` returns -1 for unknown names.
* JAX arrays: negative indices wrap, out-of-range gathers clamp and out-of-range scatter
  writes are dropped; NumPy indexing raises instead; broadcasting of axes of length one
  for vectors (`bc2`); `top_k` is stable and raises unless 0 <= n <= length.
* JAX pytrees: static fields are kept, dictionaries are rebuilt with sorted keys.
* jaxlie SO3/SE3 (`Rot.v`): product, inverse, action, matrix to quaternion (all four
  branches), log and exp with the Taylor branches below the threshold `l_eps`.
* mjx `integrate_pos` (`Conf.v`; slices are clipped and indices clamped; angular velocities
  are divided by their norm unless it is zero, where mjx treats vectors of size 1e-8 as
  zero too), `scan.body_tree` and `support.jac` (`FrameJac.v`).
* MuJoCo scenes: an array of slots with a count; the renderer writes the geoms of the
  model first and sets the count. dm_control elements are records with shared default
  classes.
* `mujoco` has no name `Model` (a hypothesis of `C74_import_refuted`).

### Library behaviour that appears as a hypothesis

The record `lib` holds the functions of mjx and JAX that are not defined in the model.
Theorems hold for every such record, or for every one satisfying a stated condition:

* `sound_lib`: kinematics produces arrays of the right sizes, and automatic
  differentiation of a function with k results gives a matrix with k rows.
* `sound_jac`, `sound_grad`: where the function is differentiable, automatic
  differentiation returns its Jacobian (gradient). This is an idealisation: JAX
  differentiates the branch taken, which differs at the boundary between branches.
* `wf_data`: the sizes of the arrays of mjx data.
* OSQP is an arbitrary function from quadratic programmes to solutions. Theorems on
  optimality assume that its result satisfies the KKT conditions; theorems on closed
  loops that it is feasible.
* optax is an arbitrary optimizer (state, init, update); theorems on gradient descent
  instantiate it.

## Findings

Properties the code does not have. Each has a `_refuted` theorem with a witness.

* C14, C27: a failed or repeated binding of a shared component changes what another
  problem compiles; a position task loses its object and still compiles with object -1.
* C15: the vmap template lists components by name, not in insertion order.
* C22: a joint barrier with a mask cannot be bound with default limits; limits of the
  wrong length given to the constructor are accepted.
* C23: after a failed binding a joint task compiles with a target of the wrong length.
* C25: masks longer than the quantity they select from are accepted and read an entry
  that was not selected (clamped index).
* C33: at a half turn the frame error depends on the sign of the target quaternion.
* C34: `_obj_frame_task.py:87` uses `target^-1 frame^-1` instead of `target^-1 frame`;
  for unrotated frames the reported rate is off by the cross product of position and
  angular velocity.
* C37: an unknown body name silently stands for the last body (id -1).
* C38, C40: a self-collision barrier keeps the number of rows, and a default one the body ids, of the first
  model it was bound to.
* C39: rows of the self-collision Jacobian use the bodies of another pair when contacts
  are reordered, geoms are swapped or a pair has several contacts; without pairs the
  Jacobian raises.
* C46: `_local_ik.py:303-304` pairs `v <= -v_min` and `-v <= v_max`; right only for
  symmetric limits.
* C48: the `active` flag of constraints is never read.
* C50: a barrier with a zero Jacobian makes the objective NaN.
* C56, C57: the global solver ignores costs, damping and gain functions; its barrier
  penalty is bounded and flat outside the limits.
* C58: the global velocity has nq entries; quaternions lose unit norm.
* C59: `joint_zero` raises on a model without joints.
* C60, C61: orientation differences depend on the quaternion's sign; the rate matrix of
  quaternion joints is twice too large.
* C64: `get_transform` multiplies the two world poses instead of inverting one.
* C66: an integer (not float) limit is not broadcast and the call raises.
* C69: marker colours run from `color_end` to `color_begin`.
* C72: geoms sharing a default class fade repeatedly.
* C73: in recorded frames markers replace geoms of the model.
* C74: the legacy module cannot be imported; its constructor is misspelled; its update
  ignores q.
* C75: re-binding an equality constraint refreshes `mask_idxs` but not `mask`.
* C76: automatic Jacobians are twice too large on ball and free joints and zero for
  custom tasks on the centre of mass.
* C115 (proved as the behaviour, not as a refutation): `integrate` does not check lengths;
  missing velocities repeat the last entry and turn ball joints by 120 degrees.
* C78: assets with the same file name in different directories are confused.

Seen while modelling, without a property of their own: `compute_safe_displacement` is
always zero; the solver data of the local solver are ignored; `lm_damping` can be made
negative by assignment; a joint barrier keeps the default limits of the first model;
`qmask_idxs` before binding raises AttributeError; 0-d targets pass some setters and
fail with IndexError in others. `README.md:61` and `docs/quick_start.rst:42,109` pass
`body_name=` to FrameTask, which takes `obj_name=`, and a pose of six numbers where seven
are needed; `examples/g1_heart_constrained.py` imports FrameConstraint and passes
`floating_base=`, neither of which exists. The global examples repeat `solve` several times per turn
at the same configuration; the gradient is the same each time (C122).

## Seeded errors

`seeded/LOG.jsonl` has one line per wrong program tried: the model was edited in a
scratch copy, proofs that failed were cut out, and the property theorems depending on
them were listed.

### What Print Assumptions lists for each theorem

Every property theorem is followed by `Print Assumptions` in its file, so the build prints the lists. Only axioms of the standard library occur:

* `ClassicalDedekindReals.sig_forall_dec`, `ClassicalDedekindReals.sig_not_dec` and `FunctionalExtensionality.functional_extensionality_dep`: the axioms under the standard library's real numbers;
* `Classical_Prop.classic`: excluded middle, used by parts of the real analysis library.

**None (closed under the global context):** C04_gain_setter, C04_vector_gain, C04_vector_gain_needs_dimension, C05_cost_setter, C07_mask_unavailable_iff, C08_accepted, C08_commute, C08_components_are_objects, C08_originals_unchanged, C08_overwrite, C08_result_is_new, C08_set_gain, C08_set_target, C08_updates, C114_constants, C114_no_other_fields, C114_problem_data_in_tree, C22_limit_setters, C31_includes, C31_limit_type_parsing, C32_frame_target, C41_grouping_is_a_partition, C42_contacts_stay_attached, C67_subtrees_can_be_listed_and_root_covers_all, C71_file_names, C71_hoist, C71_name_without_extension, C71_name_without_hash, C71_no_worldbody, C71_plain_name, C74_construct_refuted, C74_import_refuted, C74_update_ignores_q_refuted, C75_available_together, C77_jit_sorts, C78_accepted_iff, C78_first_file, C78_right_iff, C78_same_name_refuted, C78_supplied_partial, C79_after_close, C80_joint_order, C80_prefixes_distinct, C81_custom_barrier_starts, C81_custom_constraint_starts, C81_equality_starts, C81_joint_barrier_starts, C81_self_collision_starts, C82_lane_is_one_problem, C82_rows.

**`sig_forall_dec`:** C07_default_mask_of_late_dimension, C09_duplicate_name_rejected, C09_problem_is_an_ordered_map, C09_remove, C107_diagonal, C10_add_outcome, C10_failed_add_leaves_problem, C118_at_objects, C118_rows, C11_typed_lookup, C12_default_limits, C12_initial_limits, C12_limit_update, C12_limits_have_length_nv, C15_any_place_can_be_set, C15_axes_affect_only_those_leaves, C15_components, C15_outcome, C15_structure, C17_barrier_mask_accepted, C17_mask_length_checked, C17_task_mask_accepted, C22_constructor_limits_unchecked_refuted, C22_default_limits, C22_default_limits_iff, C22_explicit_limits_kept, C22_masked_default_limits_refuted, C23_incompatible_target_at_binding, C26_object_binding, C27_failed_rebinding_partial, C27_keeps_object_iff, C30_limit_updates, C30_stored_limits_have_one_entry_per_axis, C35_default_bodies, C35_pairs_sound_and_complete, C36_order_irrelevant, C37_excluded_not_a_reference_raises_partial, C37_not_a_reference_raises_partial, C37_out_of_range_raises_partial, C37_references_as_numbers_partial, C37_unknown_excluded_body_refuted, C37_unknown_listed_body_refuted, C38_minus_one_is_settled_by_the_first_model, C40_default_adapts_iff, C40_default_bodies_frozen_partial, C40_fewer_bodies_raise, C40_listed_bodies_adapt_partial, C40_rebinding_adapts_refuted, C51_init_checks_shape, C54_equality_dimension, C59_defined_iff, C59_joint_zero, C59_no_joints_refuted, C63_support_and_value, C66_integer_limit_refuted, C70_shapes, C72_kept, C72_materials, C75_equality_agrees_iff, C75_masks_agree_after_joint_binding_partial, C80_rows, C81_cost, C81_fixed_settings, C81_gain, C81_joint_limits, C81_position_barrier_starts, C81_position_limits, C81_target.

**`functional_extensionality_dep`, `sig_forall_dec`:** C01_compiled_component_never_stale, C02_read_has_no_visible_effect, C03_availability, C03_only_value_error, C04_gain_rank_invariant, C05_matrix_cost, C05_weighting_is_entrywise, C06_soft_constraint_cost, C07_default_mask, C07_explicit_mask, C07_mask_rank_rejected, C100_added_component, C106_distance_of_targets, C109_calls_by_value, C109_contents_at_binding, C109_lists_are_copied_refuted, C109_numbers_are_copied, C109_runs_by_value, C109_unnoticed_until_bound, C111_equality_mask_exception, C111_look_at_unmodified, C111_looks_change_nothing, C112_modified, C113_always_readable, C113_com_task_arguments, C113_compiled_is_shown, C113_cost, C113_custom_barrier_arguments, C113_custom_constraint_arguments, C113_custom_task_arguments, C113_equality_arguments, C113_frame_task_arguments, C113_gain, C113_joint_barrier_arguments, C113_joint_limits, C113_joint_limits_readable, C113_joint_task_arguments, C113_model, C113_object_id, C113_position_barrier_arguments, C113_position_limits, C113_position_task_arguments, C113_self_collision_arguments, C113_target, C113_target_q, C113_undefined, C114_fields_are_attributes, C114_problem_data, C118_carried_points, C118_rigid_body, C118_self_collision_rows, C119_setting_a_target, C120_template_takes_axes, C13_compile_is_a_snapshot, C14_failed_add_redirects_object_refuted, C14_one_model_partial, C14_other_components_partial, C14_sharing_is_safe_refuted, C15_order_refuted, C16_joint_barrier_indices, C16_joint_task_indices, C23_compiled_target_consistent, C23_default_target, C23_failed_binding_compiles_refuted, C23_target_setter, C25_com_masks_checked, C27_failed_rebinding_keeps_object_refuted, C27_failed_rebinding_of_barrier_partial, C27_task_compiles_without_object, C28_target_setters, C32_every_frame_task_has_a_target, C38_minus_one_means_all_pairs_partial, C38_requested_number, C42_height_fields_refused, C42_one_distance_per_pair, C44_constructors_reject_negative_damping, C44_damping_stays_nonnegative, C61_rate_matrix_partial, C62_attitude_jacobian, C62_skew_matrix, C63_local_is_rotated, C63_rigid_body_velocities, C64_relative_transform_refuted, C64_transform_from_world_partial, C66_configuration_limit_partial, C66_usable_iff, C67_subtree_centre_of_mass, C68_drawn, C68_names_added, C68_numbering, C68_rejected_call_changes_nothing, C68_stored, C69_convex_partial, C69_exact_colours, C69_one_colour, C69_order_refuted, C69_order_right_iff, C69_single_refuted, C70_quaternion, C72_faded_once_iff, C72_faded_once_partial, C72_shared_class_refuted, C73_geoms_replaced_refuted, C73_without_markers_partial, C75_all_but_equality_partial, C75_masks_agree_refuted, C79_frames_only_added, C79_not_recording, C79_one_frame_per_update, C81_com_task_starts, C81_compiled_class, C81_compiled_joint_limits, C81_compiled_position_limits, C81_compiled_settings, C81_compiled_target, C81_custom_task_starts, C81_frame_task_starts, C81_joint_task_starts, C81_position_task_starts, C82_lanes, C91_component_traced_once, C91_problem_traced_once, C92_compile_after_settings, C92_compile_iff_complete, C92_control_loop_compiles, C92_local_ik_program, C92_setup_result, C92_setup_succeeds_iff, C92_usable_iff_suits, C93_batches_compile, C93_pose_stacks_accepted, C97_nonzero_costs_care.

**`functional_extensionality_dep`, `sig_forall_dec`, `sig_not_dec`:** C115_ball_without_velocity_turns, C115_extra_entries_ignored, C115_integrate_accepts, C115_integrate_length, C115_missing_entries_repeat, C117_straight_motion, C61_right_iff, C61_scale_refuted, C61_true_rate_partial, C65_integration, C65_zero_velocity_is_identity.

**`classic`, `functional_extensionality_dep`, `sig_forall_dec`, `sig_not_dec`:** C100_idle_barrier, C100_restriction_costs, C100_restriction_met, C100_wider_limits, C101_assigned_cost, C101_higher_cost, C101_large_cost, C102_soft_compiled_is_task, C102_soft_is_task, C102_twice_is_once, C103_flow_up_to_tolerance, C103_limits_up_to_tolerance, C103_loop_up_to_tolerance, C103_no_tolerance, C103_readme_up_to_tolerance, C103_residual, C104_gap_bounds_distance, C105_damping_bounds_speed, C106_nearby_targets, C106_target_moves_solution, C107_same_best_velocities, C107_same_cost, C108_any_split_refuted, C108_part_jacobian, C108_part_value, C108_same_admissible, C108_same_best_velocities, C108_same_condition, C108_vanishing_part, C110_order_is_irrelevant, C110_parts_add_up, C110_registration_order, C110_same_steps, C116_limits_in_single_precision, C116_limits_up_to_errors, C116_one_rounding, C116_rounded_sum, C117_from_accelerations, C117_joint_barriers_do_not_curve, C117_rates_along_the_line, C117_values_after_steps, C117_violation_for_ever, C119_best_velocities_meet_tasks, C119_error_after_steps, C119_errors_shift_with_targets, C119_joint_tasks_do_not_curve, C119_lag_in_the_long_run, C120_batched_loop_never_fails, C120_lanes_are_loops, C120_lanes_stay_within_limits, C120_readme_batches, C121_batches_keep_limits, C121_batches_never_fail, C121_cassie_alip, C121_g1_heart, C121_go2_squat, C121_local_ik_output, C121_runs_or_a_barrier_is_idle, C122_batches_never_fail, C122_constraint_stops, C122_global_input, C122_global_output, C122_lanes_are_loops, C122_local_input, C122_local_one_problem, C122_one_problem_for_all_lanes, C122_repeated_solves, C122_repeats_are_idle, C123_error_leads_to_the_target, C123_motion_is_unique, C124_error_is_close_to_a_twist, C124_everywhere, C124_masked, C125_error_is_the_only_twist, C125_error_shrinks, C125_one_twist, C126_moves_away_refuted, C126_no_lever_partial, C126_right_rates_partial, C126_solver_moves_away_refuted, C126_solver_no_lever_partial, C127_doubled_turning_partial, C127_floating_base_refuted, C127_moves_away_refuted, C127_scalar_joints_partial, C127_solver_ball_joints_partial, C127_solver_moves_away_refuted, C127_solver_scalar_joints_partial, C127_turning_partial, C128_doubled_turning_partial, C128_floating_base_refuted, C128_limit_is_crossed_refuted, C128_scalar_joints_partial, C128_solver_ball_joints_partial, C128_solver_scalar_joints_partial, C128_turning_partial, C129_constraint_slips_refuted, C129_doubled_turning_partial, C129_floating_base_refuted, C129_scalar_joints_partial, C129_solver_ball_joints_partial, C129_solver_scalar_joints_partial, C129_turning_partial, C18_joint_task_value_and_jacobian, C19_joint_barrier_value_and_jacobian, C20_joint_limits_are_invariant, C20_joint_limits_of_programs, C21_joint_task_converges, C21_joint_task_error_decays, C21_loops_exist, C21_optimum_drives_task, C24_component_shapes, C24_program_shapes, C24_solver_never_fails_on_shapes, C25_long_barrier_mask_refuted, C25_long_frame_mask_refuted, C25_long_position_mask_refuted, C25_short_frame_masks_partial, C25_short_masks_partial, C26_reads_named_object, C28_com_error, C28_position_error, C29_position_barrier, C33_frame_error, C33_half_turn_refuted, C33_rigid_motion_partial, C33_sign_matters_iff, C33_size_is_invariant, C34_crank_refuted, C34_defect_refuted, C34_right_iff, C34_unrotated_partial, C38_minus_one_after_second_binding_refuted, C38_nonnegative_iff_all_clear, C38_value_is_the_n_smallest_distances, C39_no_pairs_refuted, C39_reordered_contacts_refuted, C39_right_if_bodies_agree, C39_rows_belong_to_their_contacts_partial, C39_rows_exact, C39_several_contacts_per_pair_refuted, C39_swapped_geoms_refuted, C43_cost_is_determined, C43_objective_is_weighted_least_squares, C44_hessian_symmetric_psd, C45_barrier_row_layout, C45_rows_encode_cbf, C46_symmetric_velocity_limits_partial, C46_velocity_limits_refuted, C47_equality_row_layout, C47_no_rows_without_hard_constraint, C47_rows_encode_constraints, C48_active_flag_is_ignored, C48_inactive_constraint_refuted, C49_component_order_is_irrelevant, C50_finite_data_refuted, C50_finite_iff_partial, C51_global_checks_shape, C51_solve_checks_shape, C51_solve_succeeds, C52_kkt_points_are_optimal, C52_optimal_minimises_cost, C52_rest_at_target, C53_equality_decay, C54_equality_rows, C55_barrier_antitone, C55_constraints_rejected, C55_loss_is_the_sum_of_contributions, C55_loss_nonneg, C55_loss_zero_iff, C55_programs_have_a_loss, C56_costs_and_gain_functions_ignored_refuted, C56_gains_are_weights_partial, C57_minimum_outside_limits_refuted, C57_no_push_back_refuted, C57_penalty_between_partial, C57_penalty_bounded_refuted, C57_penalty_flat_refuted, C58_from_data, C58_from_data_configuration_only, C58_from_data_wrong_length, C58_local_from_data, C58_solution_consistent_partial, C58_unit_quaternion_lost_refuted, C58_velocity_has_length_nq_refuted, C58_velocity_length_iff, C58_wrong_shape_rejected, C60_joint_difference_partial, C60_quaternion_part_leads_from_q1_to_q2, C60_right_iff, C60_same_orientation_refuted, C76_ball_joint_refuted, C76_com_tasks_qualify, C76_custom_com_zero_refuted, C76_custom_task_refuted, C76_motion_partial, C76_position_components_qualify, C76_right_iff, C76_scalar_joints, C76_turning_doubled_refuted, C77_global, C77_global_any_order, C77_local, C83_better_than_standing_still, C83_minimiser_is_best, C83_solution_exists, C83_solve_returns_best, C84_pinning_is_needed, C84_unique, C85_scaling, C85_task_costs, C86_weightless, C86_zero_cost_is_removal, C87_gain_bound_is_needed, C87_one_step, C87_posture_loop, C88_automatic_jacobians_qualify, C88_error_never_grows, C88_joint_limits_qualify, C88_joint_tasks_qualify, C89_barriers_hold, C89_hard_constraints_decay, C90_masked_jacobian, C90_masked_jacobian_automatic, C90_masked_value, C90_same_best_velocities, C90_same_cost, C92_control_loop_solves, C92_readme_loop_never_fails, C93_lanes_solve, C93_vmapped_readme_loop, C94_loop_never_fails, C94_loop_stays_within_limits, C94_readme_loop, C95_constraint_stops_the_loop, C95_global_ik_example, C95_global_loop_never_fails, C95_posture_converges_iff, C95_posture_descent, C96_cassie_squat, C96_loop_never_fails, C96_loop_runs_or_a_barrier_is_idle, C96_loop_stays_within_limits, C97_best_are_those_that_meet, C97_exponential_decay, C97_geometric_decay, C97_goals_met_iff, C98_assigned_damping, C98_damping_shortens, C99_assigned_speed, C99_speed_scales.
