(** C94: the documented control loop, turn after turn. *)
From Verif Require Import Base Lin LinFacts Mjx Typing Component Problem SpecComponent SpecJoint SpecHistory SpecTyping SpecCollision SpecTree SpecShape SpecContact SpecValue SpecProblem SpecQP SpecFit SpecTrace SpecSetup.
From Verif Require Import SetupFacts SetupFacts2 SetupCases Conf JaxComponents LocalIK SpecMotion SpecLoop SpecSolve SpecClosed ClosedThms ClosedThms2 ValueCases FitCases MotionCases DescentCases ClosedCases QPCases.
Open Scope R_scope.

(** A problem is built once from suitable tasks and joint barriers.  Then each turn makes
    some calls, compiles the problem, solves it at the current configuration and
    integrates the velocity.  Whatever plain vectors are assigned as targets, bounds and
    limits (some of these assignments may be refused), the loop never fails, however many
    turns it takes and whatever step is integrated. *)
Theorem C94_loop_never_fails m lo hi cs L So dt turns q s : sound_model m -> wf_tensor lo -> wf_tensor hi -> Forall constructed cs -> Forall (fun c => wf_arrays (c_at c)) cs ->
  limit_fits m lo -> limit_fits m hi -> NoDup (map nm cs) -> Forall (fun c => exists d, suits m c d) cs -> Forall (plain m) cs -> Forall (tracks m) cs ->
  sound_lib L m -> (forall q, List.length q = m_nq m -> wf_data m (update L m q)) -> one_entry_each So -> Forall (Forall loop_call) turns -> List.length q = m_nq m ->
  exists tr qn, control_loop L So m dt (setup m lo hi cs) turns q s tr qn /\ List.length tr = List.length turns /\ List.length qn = m_nq m.
Proof. exact (loop_never_fails m lo hi cs L So dt turns q s). Qed.
Print Assumptions C94_loop_never_fails.

(** If the joint limits are not moved, zero stays between the velocity limits, barrier
    gains times the step are between 0 and 1 and the solver is exact, such a loop
    started within the limits of its joint barriers stays within them in every turn;
    every velocity is the best admissible one, and normalised quaternions stay
    normalised. *)
Theorem C94_loop_stays_within_limits m lo hi cs L So dt turns q s tr qn : sound_model m -> wf_tensor lo -> wf_tensor hi -> Forall constructed cs -> Forall (fun c => wf_arrays (c_at c)) cs ->
  limit_fits m lo -> limit_fits m hi -> NoDup (map nm cs) -> Forall (fun c => exists d, suits m c d) cs -> Forall (plain m) cs -> Forall (tracks m) cs ->
  sound_lib L m -> (forall q, List.length q = m_nq m -> wf_data m (update L m q)) -> keeps_scalars L m -> below_zero lo -> above_zero hi -> Forall (mild dt) cs -> 0 <= dt ->
  Forall (Forall loop_call) turns -> Forall (Forall keeps_limits) turns -> List.length q = m_nq m -> Forall (in_limits m q) cs ->
  control_loop L So m dt (setup m lo hi cs) turns q s tr qn -> Forall (exact_turn L So m) tr ->
  Forall (in_limits m qn) cs /\
  Forall (fun t => let '(q, pd, v) := t in Forall (in_limits m q) cs /\ best L (update L m q) pd v) tr /\
  (normalised m q -> normalised m qn /\ Forall (fun t => normalised m (fst (fst t))) tr).
Proof. exact (loop_keeps_limits m lo hi cs L So dt turns q s tr qn). Qed.
Print Assumptions C94_loop_stays_within_limits.

(** A hinge with range [-1, 1], a posture task of gain 1/2 and a joint barrier; two turns
    of step 1 from position 1, the first of which sets the target. *)
Example C94_case : Forall constructed [half_pull; bar1] /\ Forall (fun c => wf_arrays (c_at c)) [half_pull; bar1] /\ NoDup (map nm [half_pull; bar1]) /\
  Forall (fun c => exists d, suits one c d) [half_pull; bar1] /\ Forall (plain one) [half_pull; bar1] /\ Forall (tracks one) [half_pull; bar1] /\
  Forall (mild 1) [half_pull; bar1] /\ Forall (in_limits one [1]) [half_pull; bar1].
Proof. exact pull_ready. Qed.
Example C94_run_case : sound_model one /\ sound_lib even_lib one /\ keeps_scalars even_lib one /\ (forall q, List.length q = m_nq one -> wf_data one (update even_lib one q)) /\
  one_entry_each pull_solver /\ (loop_call aim /\ keeps_limits aim) /\
  exists tr, control_loop even_lib pull_solver one 1 (setup one (tscalar (-4)) (tscalar 4) [half_pull; bar1]) [[aim]; []] [1] [0] tr [1 / 2 + 1 * - (1 / 2 * (1 / 2))] /\
  Forall (exact_turn even_lib pull_solver one) tr /\ map (fun t => fst (fst t)) tr = [[1]; [1 / 2]] /\ map snd tr = [[- (1 / 2 * 1)]; [- (1 / 2 * (1 / 2))]].
Proof.
  split; [apply chain_sound|]. split; [apply even_sound|]. split; [apply even_keeps|]. split; [intros q; apply even_wf|]. split; [exact pull_one|]. split; [exact aim_call|]. exact pull_loop.
Qed.

(** The loop of README.md, on any robot with the named body and a hinge or a slide: it
    runs for any number of turns, and with an exact solver keeps every hinge and slide
    within its joint range. *)
Theorem C94_readme_loop m s i lo hi cost g1 g2 lm d ft jb L So dt turns q s0 : sound_model m -> has_object m OBody s i -> (0 < n_scalar m)%nat ->
  wf_tensor lo -> wf_tensor hi -> limit_fits m lo -> limit_fits m hi -> below_zero lo -> above_zero hi ->
  new_frame_task "ee_task" (tscalar cost) (tscalar g1) s OBody None lm None = Ok ft ->
  new_joint_barrier "jnt_range" (tscalar g2) None d None None None = Ok jb ->
  0 <= dt -> 0 <= g2 -> g2 * dt <= 1 -> sound_lib L m -> keeps_scalars L m -> (forall q, List.length q = m_nq m -> wf_data m (update L m q)) -> one_entry_each So ->
  Forall (Forall loop_call) turns -> Forall (Forall keeps_limits) turns -> List.length q = m_nq m -> in_range m q ->
  exists tr qn, control_loop L So m dt (setup m lo hi [ft; jb]) turns q s0 tr qn /\ List.length tr = List.length turns /\ List.length qn = m_nq m /\
  (Forall (exact_turn L So m) tr -> in_range m qn /\ Forall (fun t => in_range m (fst (fst t))) tr).
Proof. exact (readme_closed m s i lo hi cost g1 g2 lm d ft jb L So dt turns q s0). Qed.
Print Assumptions C94_readme_loop.

Example C94_readme_case : sound_model rig /\ has_object rig OBody "tip" 4 /\ (0 < n_scalar rig)%nat /\ sound_lib even_lib rig /\ keeps_scalars even_lib rig /\
  (forall q, List.length q = m_nq rig -> wf_data rig (update even_lib rig q)) /\ one_entry_each pull_solver /\ Forall loop_call turn /\ Forall keeps_limits turn /\ in_range rig [0; 0; 0; 0] /\
  ~ in_range rig [0; 3; 0; 0].
Proof.
  split; [exact rig_sound|]. split; [exact rig_tip|]. split; [repeat constructor|]. split; [apply even_sound|]. split; [apply even_keeps|]. split; [intros q; apply even_wf|]. split; [exact pull_one|].
  split; [apply turn_loops|]. split; [apply turn_loops|]. exact rig_range.
Qed.
