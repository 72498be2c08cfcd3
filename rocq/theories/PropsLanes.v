(** C120: a batched control loop, turn after turn. *)
From Verif Require Import Base Lin LinFacts Mjx Typing Component Problem SpecComponent SpecJoint SpecHistory SpecTyping SpecCollision SpecTree SpecShape SpecContact SpecValue SpecProblem SpecQP SpecFit SpecTrace SpecSetup.
From Verif Require Import Conf JaxComponents LocalIK SpecMotion SpecLoop SpecSolve SpecClosed JaxTree SpecJaxTree SpecBatch SpecVmap SpecLanes SetupFacts SetupFacts2 LanesLoop LanesRun LanesCases LanesCases2.
From Verif Require Import FitCases SetupCases VmapCases MotionCases DescentCases ClosedCases.
Open Scope nat_scope.

(** A template is made once, before the loop, and gets axis 0 at some places.  Then every
    turn assigns stacks of [N] rows at those places, compiles once, and calls the jitted,
    vmapped [solve] on [N] configurations at a time.  After any calls to the API and for any number of turns, such a
    loop is [N] ordinary jitted loops side by side: lane [i] sees the data, and finds the
    velocities and configurations, of the loop that assigns row [i] of every stack.  And if
    each of these loops runs, so does the batched one. *)
Theorem C120_lanes_are_loops L So m dt N os t places tm turns q s : Forall legal os ->
  fst (set_vmap_dimension 0 (state os)) = Ok t -> set_axes places t = Ok tm ->
  let prog := os ++ [WCompile 0] in stacked N places prog turns ->
  (forall tr qn, vmapped_loop L So m dt N tm prog turns q s tr qn -> forall i, i < N -> jitted_loop L So m dt prog (rows_of i turns) (q i) (s i) (lane i tr) (qn i)) /\
  ((forall i, i < N -> exists tr qn, jitted_loop L So m dt prog (rows_of i turns) (q i) (s i) tr qn) -> exists tr qn, vmapped_loop L So m dt N tm prog turns q s tr qn).
Proof. exact (lanes_are_loops L So m dt N os t places tm turns q s). Qed.
Print Assumptions C120_lanes_are_loops.

(** The template made before the loop can be given axis 0 at the places that the turns
    assign. *)
Theorem C120_template_takes_axes N os t places turns : Forall legal os -> fst (set_vmap_dimension 0 (state os)) = Ok t ->
  stacked N places (os ++ [WCompile 0]) turns -> turns <> [] -> exists tm, set_axes places t = Ok tm.
Proof. exact (template_takes_axes N os t places turns). Qed.
Print Assumptions C120_template_takes_axes.

(** Two turns that give a pose to each of two lanes. *)
Example C120_case : stacked 2 ee_places (lanes_prog ++ [WCompile 0]) lanes_turns /\ Forall legal lanes_prog /\
  exists t tm pd, fst (set_vmap_dimension 0 (state lanes_prog)) = Ok t /\ set_axes ee_places t = Ok tm /\
  compiled_by ((lanes_prog ++ [WCompile 0]) ++ map as_step (nth 0 lanes_turns []) ++ [WCompile 0] ++ map as_step (nth 1 lanes_turns [])) 0 pd /\
  at_path ["components"; "ee_task"; "target_frame"; "wxyz_xyz"]%string (sample (slice 0) tm (data_object (under_jit pd))) = Some (PArr (tvec [1; 0; 0; 0; 7; 8; 9]%R)) /\
  at_path ["components"; "ee_task"; "target_frame"; "wxyz_xyz"]%string (sample (slice 1) tm (data_object (under_jit pd))) = Some (PArr (tvec [0; 0; 1; 0; -1; -2; -3]%R)).
Proof. split; [exact lanes_stacked|]. split; [|exact lanes_poses]. destruct setup_case as (_ & Hc & Hw & _). now apply SetupFacts2.setup_legal. Qed.

(** The batched loop over a problem built from suitable tasks and joint barriers never
    fails, whatever rows the stacks hold. *)
Theorem C120_batched_loop_never_fails m lo hi cs L So dt N places t tm turns q s : sound_model m -> wf_tensor lo -> wf_tensor hi -> Forall constructed cs -> Forall (fun c => wf_arrays (c_at c)) cs ->
  limit_fits m lo -> limit_fits m hi -> NoDup (map nm cs) -> Forall (fun c => exists d, suits m c d) cs -> Forall (plain m) cs -> Forall (tracks m) cs ->
  sound_lib L m -> (forall q, List.length q = m_nq m -> wf_data m (update L m q)) -> one_entry_each So ->
  let prog := setup m lo hi cs in
  fst (set_vmap_dimension 0 (state prog)) = Ok t -> set_axes places t = Ok tm -> stacked N places (prog ++ [WCompile 0]) turns ->
  Forall (Forall (fun k => vectors N (snd k))) turns -> (forall i, i < N -> List.length (q i) = m_nq m) ->
  exists tr qn, vmapped_loop L So m dt N tm (prog ++ [WCompile 0]) turns q s tr qn /\ forall i, i < N -> List.length (qn i) = m_nq m.
Proof. intros H1 H2 H3 H4 H5 H6 H7 H8 H9 H10 H11. exact (batches_run m lo hi cs H1 H2 H3 H4 H5 H6 H7 H8 H9 H10 H11 L So dt N places t tm turns q s). Qed.
Print Assumptions C120_batched_loop_never_fails.

(** Every lane that starts within the limits of the joint barriers stays within them in
    every turn if its solutions are exact. *)
Theorem C120_lanes_stay_within_limits m lo hi cs L So dt N places t tm turns q s tr qn : sound_model m -> wf_tensor lo -> wf_tensor hi -> Forall constructed cs -> Forall (fun c => wf_arrays (c_at c)) cs ->
  limit_fits m lo -> limit_fits m hi -> NoDup (map nm cs) -> Forall (fun c => exists d, suits m c d) cs -> Forall (plain m) cs -> Forall (tracks m) cs ->
  below_zero lo -> above_zero hi -> Forall (mild dt) cs -> (0 <= dt)%R -> sound_lib L m -> keeps_scalars L m ->
  (forall q, List.length q = m_nq m -> wf_data m (update L m q)) ->
  let prog := setup m lo hi cs in
  fst (set_vmap_dimension 0 (state prog)) = Ok t -> set_axes places t = Ok tm -> stacked N places (prog ++ [WCompile 0]) turns ->
  Forall (Forall (fun k => vectors N (snd k))) turns -> Forall (Forall (fun k => keeps_limits (as_step k))) turns ->
  vmapped_loop L So m dt N tm (prog ++ [WCompile 0]) turns q s tr qn ->
  forall i, i < N -> List.length (q i) = m_nq m -> Forall (in_limits m (q i)) cs -> Forall (exact_turn L So m) (lane i tr) ->
  Forall (in_limits m (qn i)) cs /\ Forall (fun t => Forall (in_limits m (fst (fst t) i)) cs) tr.
Proof. intros H1 H2 H3 H4 H5 H6 H7 H8 H9 H10 H11. exact (batches_safe m lo hi cs H1 H2 H3 H4 H5 H6 H7 H8 H9 H10 H11 L So dt N places t tm turns q s tr qn). Qed.
Print Assumptions C120_lanes_stay_within_limits.

(** The problem of README.md solved in batches, on any robot with the named body and a
    hinge or a slide: one stack of poses per turn, for any number of turns and lanes.  All
    calls are accepted, the loop runs, and each lane keeps to the joint range. *)
Theorem C120_readme_batches m s i0 lo hi cost g1 g2 lm d0 ft jb L So dt N Ts q s0 : sound_model m -> has_object m OBody s i0 -> 0 < n_scalar m ->
  wf_tensor lo -> wf_tensor hi -> limit_fits m lo -> limit_fits m hi -> below_zero lo -> above_zero hi ->
  new_frame_task "ee_task" (tscalar cost) (tscalar g1) s OBody None lm None = Ok ft ->
  new_joint_barrier "jnt_range" (tscalar g2) None d0 None None None = Ok jb ->
  (0 <= dt)%R -> (0 <= g2)%R -> (g2 * dt <= 1)%R -> sound_lib L m -> keeps_scalars L m -> (forall q, List.length q = m_nq m -> wf_data m (update L m q)) -> one_entry_each So ->
  Forall (fun T => wf_tensor T /\ t_shape T = [N; 7]) Ts -> Ts <> [] -> (forall i, i < N -> List.length (q i) = m_nq m) ->
  let prog := setup m lo hi [ft; jb] in
  exists t tm tr qn, fst (set_vmap_dimension 0 (state prog)) = Ok t /\ set_axes [["components"; "ee_task"; "target_frame"]%string] t = Ok tm /\
    vmapped_loop L So m dt N tm (prog ++ [WCompile 0]) (map (fun T => [(0, "ee_task"%string, OpTargetFrame (FArr T))]) Ts) q s0 tr qn /\
    forall i, i < N -> List.length (qn i) = m_nq m /\
      (in_range m (q i) -> Forall (exact_turn L So m) (lane i tr) -> in_range m (qn i) /\ Forall (fun t => in_range m (fst (fst t) i)) tr).
Proof. exact (readme_batches m s i0 lo hi cost g1 g2 lm d0 ft jb L So dt N Ts q s0). Qed.
Print Assumptions C120_readme_batches.

Example C120_readme_case : exists t tm tr qn, fst (set_vmap_dimension 0 (state lanes_prog)) = Ok t /\ set_axes ee_places t = Ok tm /\
  vmapped_loop even_lib pull_solver rig (1 / 100) 2 tm (lanes_prog ++ [WCompile 0]) lanes_turns two_starts (fun _ => [0; 0; 0; 0]%R) tr qn /\
  forall i, i < 2 -> List.length (qn i) = m_nq rig /\
    (in_range rig (two_starts i) -> Forall (exact_turn even_lib pull_solver rig) (lane i tr) -> in_range rig (qn i) /\ Forall (fun t => in_range rig (fst (fst t) i)) tr).
Proof. exact lanes_run_case. Qed.
Example C120_batch_case : Forall (Forall (fun k => vectors 2 (snd k))) lanes_turns /\ Forall (Forall (fun k => keeps_limits (as_step k))) lanes_turns /\ Forall (plain rig) [ee_task "tip"; jnt_range].
Proof.
  split; [|split].
  - constructor; [constructor; [exists two_poses; exists 7; repeat split|constructor]|]. constructor; [constructor; [exists other_poses; exists 7; repeat split|constructor]|constructor].
  - repeat constructor.
  - destruct setup_case as (_ & _ & _ & Hp & _). exact Hp.
Qed.
