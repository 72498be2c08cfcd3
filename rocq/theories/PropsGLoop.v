(** C95: the loop of examples/global_ik.py. *)
From Verif Require Import Base Lin LinFacts Mjx Typing Component Problem SpecComponent SpecJoint SpecHistory SpecTyping SpecCollision SpecTree SpecShape SpecContact SpecSelf SpecValue SpecProblem SpecQP SpecFit SpecTrace SpecSetup.
From Verif Require Import SetupFacts2 SetupCases Conf JaxComponents GlobalIK SpecMotion SpecGlobal SpecClosed SpecGLoop GlobalFacts2 GLoopFacts GLoopThms2 GLoopCases FitCases DescentCases ClosedCases QPCases.
Open Scope R_scope.

(** A problem is built once from suitable tasks and barriers.  Then each turn makes some
    calls, compiles the problem, makes one optimizer step at the current configuration and
    goes on from the configuration found.  Whatever plain vectors are assigned as targets,
    bounds and limits, the loop never fails, however many turns it takes and whatever
    optimizer is used. *)
Theorem C95_global_loop_never_fails m lo hi cs L grad O dt turns q st : sound_model m -> wf_tensor lo -> wf_tensor hi -> Forall constructed cs -> Forall (fun c => wf_arrays (c_at c)) cs ->
  limit_fits m lo -> limit_fits m hi -> NoDup (map nm cs) -> Forall (fun c => exists d, suits m c d) cs -> Forall (plain m) cs -> Forall (fun c => ~ constraint_component c) cs ->
  sound_lib L m -> (forall q, List.length q = m_nq m -> wf_data m (update L m q) /\ Forall (evaluates L m q) cs) -> traces grad -> step_keeps_length O ->
  Forall (Forall loop_call) turns -> List.length q = m_nq m ->
  exists tr qn, global_loop L grad O m dt (setup m lo hi cs) turns q st tr qn /\ List.length tr = List.length turns /\ List.length qn = m_nq m.
Proof. exact (global_loop_runs m lo hi cs L grad O dt turns q st). Qed.
Print Assumptions C95_global_loop_never_fails.

(** If one of the components is a constraint, every optimizer step fails: the first turn
    raises [NotImplementedError], whatever was assigned before it. *)
Theorem C95_constraint_stops_the_loop m lo hi cs L grad O dt os turns q st : sound_model m -> wf_tensor lo -> wf_tensor hi -> Forall constructed cs -> Forall (fun c => wf_arrays (c_at c)) cs ->
  limit_fits m lo -> limit_fits m hi -> NoDup (map nm cs) -> Forall (fun c => exists d, suits m c d) cs -> Forall (plain m) cs -> Exists constraint_component cs ->
  sound_lib L m -> wf_data m (update L m q) -> Forall (evaluates L m q) cs -> traces grad -> Forall loop_call os -> List.length q = m_nq m ->
  (exists pd, compiled_by (setup m lo hi cs ++ os) 0 pd /\ gsolve L grad O m dt (tvec q) st pd = Err NotImplementedError) /\
  forall tr qn, ~ global_loop L grad O m dt (setup m lo hi cs) (os :: turns) q st tr qn.
Proof. exact (global_loop_stops m lo hi cs L grad O dt os turns q st). Qed.
Print Assumptions C95_constraint_stops_the_loop.

Example C95_constraint_case : constructed rig_equality /\ constraint_component rig_equality /\ wf_arrays (c_at rig_equality) /\ suits rig rig_equality 3 /\ plain rig rig_equality /\
  (forall q, List.length q = m_nq rig -> evaluates rig_lib rig q rig_equality).
Proof. exact rig_equality_case. Qed.

(** The loop of examples/global_ik.py, on any robot with the named body and a pair of geoms
    to check, whatever the numbers in it: it runs for any number of turns. *)
Theorem C95_global_ik_example m s i lo hi cost g1 g2 g3 g4 lm px d1 d2 d3 dm ft pb jb sc L grad O dt turns q st : sound_model m -> has_object m OBody s i ->
  new_frame_task "ee_task" (tscalar cost) (tscalar g1) s OBody None lm None = Ok ft ->
  new_position_barrier "ee_barrier" (tscalar g2) s OBody None (Some (tscalar px)) "max" None d1 (Some (mvec [1; 0; 0]%Z)) = Ok pb ->
  new_joint_barrier "jnt_range" (tscalar g3) None d2 None None None = Ok jb ->
  new_self_collision "self_collision_barrier" (tscalar g4) None d3 dm [] [] (-1) = Ok sc ->
  sound_lib L m -> (forall q, List.length q = m_nq m -> wf_data m (update L m q)) ->
  (forall ps, checks_exactly m (all_bodies m) [] ps -> ps <> [] /\ full_table (l_coll L) m ps) ->
  traces grad -> step_keeps_length O -> Forall (Forall loop_call) turns -> List.length q = m_nq m ->
  exists tr qn, global_loop L grad O m dt (setup m (tscalar lo) (tscalar hi) [ft; pb; jb; sc]) turns q st tr qn /\ List.length tr = List.length turns /\ List.length qn = m_nq m.
Proof. exact (global_ik_loop m s i lo hi cost g1 g2 g3 g4 lm px d1 d2 d3 dm ft pb jb sc L grad O dt turns q st). Qed.
Print Assumptions C95_global_ik_example.

Example C95_example_case : sound_model rig /\ has_object rig OBody "tip" 4 /\ sound_lib rig_lib rig /\ (forall q, List.length q = m_nq rig -> wf_data rig (update rig_lib rig q)) /\
  (forall ps, checks_exactly rig (all_bodies rig) [] ps -> ps <> [] /\ full_table (l_coll rig_lib) rig ps) /\
  traces tracing_grad /\ step_keeps_length (descent 1) /\ Forall loop_call turn /\
  new_frame_task "ee_task" (tscalar 1) (tscalar 20) "tip" OBody None 0 None = Ok (ee_task "tip") /\
  new_position_barrier "ee_barrier" (tscalar 100) "tip" OBody None (Some (tscalar (3 / 10))) "max" None (1 / 100) (Some (mvec [1; 0; 0]%Z)) = Ok (ee_barrier "tip").
Proof.
  split; [exact rig_sound|]. split; [exact rig_tip|]. split; [exact rig_lib_sound|]. split; [exact rig_wf|]. split; [exact rig_pairs|]. split; [apply tracing_ok|]. split; [apply descent_length|].
  split; [apply turn_loops|]. split; [apply ee_task_new|reflexivity].
Qed.

(** Plain gradient descent with learning rate [r] on a posture task: [n] steps exist, and
    they bring the distance of each selected joint from its target to [(1 - 2 r g)^n] times
    what it was, [g] being the gain of that joint; other coordinates do not move. *)
Theorem C95_posture_descent L grad m pd fm j t r dt n q st : sound_grad grad -> keeps_scalars L m -> jd_model pd = m -> j_model j = m -> comps_of pd = [j] -> joint_task fm j -> has_target j t ->
  List.length q = m_nq m -> (exists qn, gsteps L grad (descent r) m dt pd n q st qn) /\
  forall qn, gsteps L grad (descent r) m dt pd n q st qn -> List.length qn = m_nq m /\
  (forall k x, nth_error (selected m fm) k = Some x -> nth (qpos_of m x) qn 0 - nth k t 0 = (1 - 2 * r * nth k (j_gain j) 0) ^ n * (nth (qpos_of m x) q 0 - nth k t 0)) /\
  (forall i, (forall x, In x (selected m fm) -> qpos_of m x <> i) -> nth i qn 0 = nth i q 0).
Proof. exact (fun Hg Hk Em Ej Ec Hj Ht Hq => conj (posture_steps L grad m pd fm j t Hg Hk Em Ej Ec Hj Ht r dt n q st Hq) (fun qn => posture_after L grad m pd fm j t Hg Hk Em Ej Ec Hj Ht r dt n q st qn Hq)). Qed.
Print Assumptions C95_posture_descent.

(** Such a descent converges to the target of a joint that is not there yet exactly if
    learning rate times gain is between 0 and 1. *)
Theorem C95_posture_converges_iff L grad m pd fm j t r dt q st k x : sound_grad grad -> keeps_scalars L m -> jd_model pd = m -> j_model j = m -> comps_of pd = [j] -> joint_task fm j -> has_target j t ->
  List.length q = m_nq m -> nth_error (selected m fm) k = Some x -> nth (qpos_of m x) q 0 <> nth k t 0 ->
  ((forall e, 0 < e -> exists N, forall n qn, (N <= n)%nat -> gsteps L grad (descent r) m dt pd n q st qn -> Rabs (nth (qpos_of m x) qn 0 - nth k t 0) < e) <->
   0 < r * nth k (j_gain j) 0 < 1).
Proof. exact (posture_converges L grad m pd fm j t r dt q st k x). Qed.
Print Assumptions C95_posture_converges_iff.

(** One hinge, gain 1/2 and learning rate 1/2, target 0: 1, 1/2, 1/4. *)
Example C95_posture_case : compiled_by lone_prog 0 lone_pd /\ comps_of lone_pd = [pull_j (1 / 2)] /\ jd_model lone_pd = one /\ joint_task None (pull_j (1 / 2)) /\ has_target (pull_j (1 / 2)) [0] /\
  selected one None = [0%nat] /\ qpos_of one 0 = 0%nat /\ j_gain (pull_j (1 / 2)) = [1 / 2] /\ j_model (pull_j (1 / 2)) = one.
Proof. exact lone_case. Qed.
Example C95_posture_run : sound_grad tracing_grad /\ keeps_scalars even_lib one /\
  exists q1 q2, gsteps even_lib tracing_grad (descent (1 / 2)) one 1 lone_pd 1 [1] tt q1 /\ gsteps even_lib tracing_grad (descent (1 / 2)) one 1 lone_pd 2 [1] tt q2 /\ q1 = [1 / 2] /\ q2 = [1 / 4].
Proof. split; [apply tracing_ok|]. split; [apply even_keeps|]. exact lone_steps. Qed.
