(** C122: batched loops around the global solver, and one problem for all lanes. *)
From Verif Require Import Base Lin LinFacts Mjx Typing Component Problem SpecComponent SpecJoint SpecHistory SpecTyping SpecCollision SpecTree SpecShape SpecContact SpecSelf SpecValue SpecProblem SpecQP SpecFit SpecTrace SpecSetup.
From Verif Require Import Conf JaxComponents LocalIK GlobalIK SpecMotion SpecLoop SpecSolve SpecGlobal SpecClosed SpecGLoop SpecAnyLoop JaxTree SpecJaxTree SpecBatch SpecVmap SpecLanes SpecStacks SpecGLanes SetupFacts2.
From Verif Require Import FitCases SetupCases VmapCases MotionCases DescentCases ClosedCases LanesCases LanesCases2 GLoopCases AnyLoopCases StackThms StackExamples StackWitness GLanesFacts GLanesThms GLanesExamples.
Open Scope nat_scope.

(** The batched global loop, with any number of calls of [solve] in each turn, is one loop
    per lane: each lane of a run is a run of the loop that assigns this lane's rows, and if
    all these loops run, the batched one does. *)
Theorem C122_lanes_are_loops L grad O m dt k N os t places tm turns q st : Forall legal os -> fst (set_vmap_dimension 0 (state os)) = Ok t -> set_axes places t = Ok tm ->
  let prog := os ++ [WCompile 0] in stacked N places prog turns ->
  (forall tr qn, vmapped_gloop L grad O m dt (S k) N tm prog turns q st tr qn -> forall i, i < N -> jitted_gloop L grad O m dt (S k) prog (rows_of i turns) (q i) (st i) (lane i tr) (qn i)) /\
  ((forall i, i < N -> exists tr qn, jitted_gloop L grad O m dt (S k) prog (rows_of i turns) (q i) (st i) tr qn) -> exists tr qn, vmapped_gloop L grad O m dt (S k) N tm prog turns q st tr qn).
Proof. exact (glanes_are_loops L grad O m dt k N os t places tm turns q st). Qed.
Print Assumptions C122_lanes_are_loops.

(** Any tasks and barriers, any calls after the set-up, stacks of targets in every turn:
    the template can be made, all assignments are accepted and the batched loop runs,
    whatever the optimizer, the number of lanes, of turns and of calls in each turn. *)
Theorem C122_batches_never_fail m lo hi cs L grad O dt k N pre q st places turns : sound_model m -> wf_tensor lo -> wf_tensor hi -> limit_fits m lo -> limit_fits m hi -> NoDup (map nm cs) -> Forall (ready m) cs ->
  Forall (fun c => ~ constraint_component c) cs -> sound_lib L m -> (forall q, List.length q = m_nq m -> wf_data m (update L m q) /\ Forall (evaluates L m q) cs) -> traces grad -> step_keeps_length O -> Forall loop_call pre ->
  Forall (fun ks => stack_turn m N cs ks /\ forall p, In p (map place ks) <-> In p places) turns -> turns <> [] -> (forall i, i < N -> List.length (q i) = m_nq m) ->
  let prog := setup m lo hi cs ++ pre in
  exists t tm tr qn, fst (set_vmap_dimension 0 (state prog)) = Ok t /\ set_axes places t = Ok tm /\ vmapped_gloop L grad O m dt (S k) N tm (prog ++ [WCompile 0]) turns q st tr qn /\
  forall i, i < N -> jitted_gloop L grad O m dt (S k) (prog ++ [WCompile 0]) (rows_of i turns) (q i) (st i) (lane i tr) (qn i).
Proof. intros H1 H2 H3 H4 H5 H6 H7 H8 H9 H10 H11 H12 H13 H14 H15 H16. exact (gstacks_run m lo hi cs H1 H2 H3 H4 H5 H6 H7 L grad O dt k H9 H10 H11 N pre q st H13 H16 places turns H12 H8 H14 H15). Qed.
Print Assumptions C122_batches_never_fail.

(** If one component is a constraint, no batched global loop gets through its first turn. *)
Theorem C122_constraint_stops m lo hi cs L grad O dt k N pre q st places turns t tm : sound_model m -> wf_tensor lo -> wf_tensor hi -> limit_fits m lo -> limit_fits m hi -> NoDup (map nm cs) -> Forall (ready m) cs ->
  Exists constraint_component cs -> sound_lib L m -> (forall q, List.length q = m_nq m -> wf_data m (update L m q) /\ Forall (evaluates L m q) cs) -> traces grad -> Forall loop_call pre ->
  Forall (fun ks => stack_turn m N cs ks /\ forall p, In p (map place ks) <-> In p places) turns -> turns <> [] -> 0 < N -> (forall i, i < N -> List.length (q i) = m_nq m) ->
  let prog := setup m lo hi cs ++ pre in fst (set_vmap_dimension 0 (state prog)) = Ok t -> set_axes places t = Ok tm ->
  forall tr qn, ~ vmapped_gloop L grad O m dt (S k) N tm (prog ++ [WCompile 0]) turns q st tr qn.
Proof. intros H1 H2 H3 H4 H5 H6 H7 H8 H9 H10 H11 H13 H14 H15 HN H16 prog E1 E2. exact (gstacks_stop m lo hi cs H1 H2 H3 H4 H5 H6 H7 L grad O dt k H9 H10 H11 N pre q st H13 H16 places turns t tm HN H8 H14 H15 E1 E2). Qed.
Print Assumptions C122_constraint_stops.
Example C122_constraint_case : Forall (ready rig) crowd /\ Exists constraint_component crowd /\ NoDup (map nm crowd) /\
  (forall q, List.length q = m_nq rig -> wf_data rig (update rig_lib rig q) /\ Forall (evaluates rig_lib rig q) crowd) /\ traces tracing_grad.
Proof.
  destruct crowd_case as (A & B & C & D & E & F). split; [|split; [|split; [exact C|split; [exact F|apply tracing_ok]]]].
  - rewrite Forall_forall in A, B, D, E |- *. intros c Hc. unfold ready. auto.
  - apply Exists_exists. exists (last crowd (ee_task "tip")). split; [unfold crowd; cbn; tauto|exact I].
Qed.

(** Repeating [solve] at the same configuration, as global_ik_vmapped_output.py does five
    times per turn "to get stable results": all calls differentiate the loss at the same
    place.  The result is what the optimizer answers when it is given that one gradient
    again and again. *)
Theorem C122_repeated_solves L grad O m dt pd k q st q1 v st1 : attempts L grad O m dt pd (S k) q st q1 v st1 <->
  List.length q = m_nq m /\ exists g, grad (fun x => loss_fn L x pd) q = Ok g /\ q1 = vadd q (fst (fed O g (S k) st)) /\ v = map (fun x => x / dt)%R (fst (fed O g (S k) st)) /\ st1 = snd (fed O g (S k) st).
Proof. exact (attempts_iff L grad O m dt pd k q st q1 v st1). Qed.
Print Assumptions C122_repeated_solves.
(** So for an optimizer without memory, such as plain gradient descent, they change nothing. *)
Theorem C122_repeats_are_idle L grad O m dt pd k q st q1 v : forgetful O ->
  (exists st1, attempts L grad O m dt pd (S k) q st q1 v st1) <-> exists st1, gsolve L grad O m dt (tvec q) st pd = Ok (q1, v, st1).
Proof. exact (attempts_idle L grad O m dt pd k q st q1 v). Qed.
Print Assumptions C122_repeats_are_idle.
(** An optimizer that counts its calls and makes longer steps: there they matter. *)
Definition bolder : optimizer := mkOpt R (fun _ => 0%R) (fun g st => (vscale (- (st + 1)) g, (st + 1)%R)).
Example C122_repeats_case : forgetful (descent 1) /\ ~ forgetful bolder /\ fst (fed bolder [1%R] 1 0%R) = [-1]%R /\ fst (fed bolder [1%R] 5 0%R) = [-5]%R.
Proof.
  assert (E1 : fst (fed bolder [1%R] 1 0%R) = [-1]%R) by (cbn; f_equal; ring). assert (E2 : fst (fed bolder [1%R] 5 0%R) = [-5]%R) by (cbn; f_equal; ring).
  split; [intros g st st'; reflexivity|]. split; [|split; assumption]. intros F. specialize (F [1%R] 0%R 1%R). cbn in F. injection F as F. lra.
Qed.

(** One problem for all lanes ([in_axes=None] for the problem data): every lane runs the
    loop of a single robot, and the batched loop always runs. *)
Theorem C122_one_problem_for_all_lanes m lo hi cs L grad O dt k N pre q st turns : sound_model m -> wf_tensor lo -> wf_tensor hi -> limit_fits m lo -> limit_fits m hi -> NoDup (map nm cs) -> Forall (ready m) cs ->
  Forall (fun c => ~ constraint_component c) cs -> sound_lib L m -> (forall q, List.length q = m_nq m -> wf_data m (update L m q) /\ Forall (evaluates L m q) cs) -> traces grad -> step_keeps_length O -> Forall loop_call pre ->
  Forall (Forall (fun c => loop_call (as_step c))) turns -> 0 < N -> (forall i, i < N -> List.length (q i) = m_nq m) ->
  let prog := setup m lo hi cs ++ pre in
  exists tr qn, vmapped_gloop L grad O m dt (S k) N PNone prog turns q st tr qn /\
  forall i, i < N -> jitted_gloop L grad O m dt (S k) prog (map (map as_step) turns) (q i) (st i) (lane i tr) (qn i).
Proof. intros H1 H2 H3 H4 H5 H6 H7 H8 H9 H10 H11 H12 H13 H14 HN H16. exact (gshared_run m lo hi cs H1 H2 H3 H4 H5 H6 H7 L grad O dt k H9 H10 H11 N pre q st H13 H16 turns H12 H8 H14 HN). Qed.
Print Assumptions C122_one_problem_for_all_lanes.
(** The same around the local solver: the batched loop runs unless, in some lane and turn,
    a barrier does not depend on the velocity. *)
Theorem C122_local_one_problem m lo hi cs L So dt N pre turns q s : sound_model m -> wf_tensor lo -> wf_tensor hi -> limit_fits m lo -> limit_fits m hi -> NoDup (map nm cs) -> Forall (ready m) cs ->
  sound_lib L m -> (forall q, List.length q = m_nq m -> wf_data m (update L m q) /\ Forall (evaluates L m q) cs) -> one_entry_each So -> Forall loop_call pre ->
  Forall (Forall (fun c => loop_call (as_step c))) turns -> 0 < N -> (forall i, i < N -> List.length (q i) = m_nq m) -> let prog := setup m lo hi cs ++ pre in
  (exists tr qn, vmapped_loop L So m dt N PNone prog turns q s tr qn /\ forall i, i < N -> jitted_loop L So m dt prog (map (map as_step) turns) (q i) (s i) (lane i tr) (qn i)) \/
  (exists i ts ks ts' tr q' pd, i < N /\ turns = ts ++ ks :: ts' /\ jitted_loop L So m dt prog (map (map as_step) ts) (q i) (s i) tr q' /\
     compiled_by (prog ++ calls_of (map (map as_step) ts) ++ map as_step ks) 0 pd /\ (forall s', solve L So m (tvec q') s' (under_jit pd) = Err NonFinite) /\ idle_barrier L (update L m q') pd).
Proof. exact (shared_outcome m lo hi cs L So dt N pre turns q s). Qed.
Print Assumptions C122_local_one_problem.

(** examples/global_ik_vmapped_output.py, on any robot with the body it names and a hinge or
    a slide: for all gains, limits, stacks of poses, lanes, turns and calls per turn. *)
Theorem C122_global_output m s0 i0 lo hi kk g1 g2 g3 lm d0 d1 px ft pb jb L grad O dt k N pre q st Ts : sound_model m -> has_object m OBody s0 i0 -> 0 < n_scalar m ->
  new_frame_task "ee_task" (tscalar kk) (tscalar g1) s0 OBody None lm None = Ok ft ->
  new_position_barrier "ee_barrier" (tscalar g2) s0 OBody None (Some (tscalar px)) "max" None d0 (Some (mvec [1; 0; 0]%Z)) = Ok pb ->
  new_joint_barrier "jnt_range" (tscalar g3) None d1 None None None = Ok jb ->
  sound_lib L m -> (forall q, List.length q = m_nq m -> wf_data m (update L m q)) -> Forall loop_call pre -> (forall i, i < N -> List.length (q i) = m_nq m) ->
  traces grad -> step_keeps_length O -> Forall (stack_of N 7) Ts -> Ts <> [] -> let prog := setup m (tscalar lo) (tscalar hi) [ft; pb; jb] ++ pre in
  exists t tm tr qn, fst (set_vmap_dimension 0 (state prog)) = Ok t /\ set_axes ee_place t = Ok tm /\
  vmapped_gloop L grad O m dt (S k) N tm (prog ++ [WCompile 0]) (map ee_turn Ts) q st tr qn /\
  forall i, i < N -> jitted_gloop L grad O m dt (S k) (prog ++ [WCompile 0]) (rows_of i (map ee_turn Ts)) (q i) (st i) (lane i tr) (qn i).
Proof. intros H1 H2 H3 H4 H5 H6 H7 H8 H9 H10. exact (global_output m s0 i0 lo hi kk g1 g2 g3 lm d0 d1 px ft pb jb H1 H2 H3 H4 H5 H6 L grad O dt k N pre q st H7 H8 H9 H10 Ts). Qed.
Print Assumptions C122_global_output.

(** examples/global_ik_vmapped_input.py: one pose for all lanes. *)
Theorem C122_global_input m s0 i0 lo hi kk g1 g2 g3 lm d0 d1 px ft pb jb L grad O dt k N pre q st ps : sound_model m -> has_object m OBody s0 i0 -> 0 < n_scalar m ->
  new_frame_task "ee_task" (tscalar kk) (tscalar g1) s0 OBody None lm None = Ok ft ->
  new_position_barrier "ee_barrier" (tscalar g2) s0 OBody None (Some (tscalar px)) "max" None d0 (Some (mvec [1; 0; 0]%Z)) = Ok pb ->
  new_joint_barrier "jnt_range" (tscalar g3) None d1 None None None = Ok jb ->
  sound_lib L m -> (forall q, List.length q = m_nq m -> wf_data m (update L m q)) -> Forall loop_call pre -> (forall i, i < N -> List.length (q i) = m_nq m) ->
  traces grad -> step_keeps_length O -> Forall (fun p => List.length p = 7) ps -> 0 < N -> let prog := setup m (tscalar lo) (tscalar hi) [ft; pb; jb] ++ pre in
  exists tr qn, vmapped_gloop L grad O m dt (S k) N PNone prog (map (fun p => ee_turn (tvec p)) ps) q st tr qn /\
  forall i, i < N -> jitted_gloop L grad O m dt (S k) prog (map (map as_step) (map (fun p => ee_turn (tvec p)) ps)) (q i) (st i) (lane i tr) (qn i).
Proof. intros H1 H2 H3 H4 H5 H6 H7 H8 H9 H10. exact (global_input m s0 i0 lo hi kk g1 g2 g3 lm d0 d1 px ft pb jb H1 H2 H3 H4 H5 H6 L grad O dt k N pre q st H7 H8 H9 H10 ps). Qed.
Print Assumptions C122_global_input.

(** examples/local_ik_vmapped_input.py. *)
Theorem C122_local_input m s0 i0 lo hi kk g1 g2 g3 lm d0 d1 px ft pb jb L So dt N pre q s ps : sound_model m -> has_object m OBody s0 i0 -> 0 < n_scalar m ->
  new_frame_task "ee_task" (tscalar kk) (tscalar g1) s0 OBody None lm None = Ok ft ->
  new_position_barrier "ee_barrier" (tscalar g2) s0 OBody None (Some (tscalar px)) "max" None d0 (Some (mvec [1; 0; 0]%Z)) = Ok pb ->
  new_joint_barrier "jnt_range" (tscalar g3) None d1 None None None = Ok jb ->
  sound_lib L m -> (forall q, List.length q = m_nq m -> wf_data m (update L m q)) -> Forall loop_call pre -> (forall i, i < N -> List.length (q i) = m_nq m) ->
  one_entry_each So -> Forall (fun p => List.length p = 7) ps -> 0 < N -> let prog := setup m (tscalar lo) (tscalar hi) [ft; pb; jb] ++ pre in let turns := map (fun p => ee_turn (tvec p)) ps in
  (exists tr qn, vmapped_loop L So m dt N PNone prog turns q s tr qn /\ forall i, i < N -> jitted_loop L So m dt prog (map (map as_step) turns) (q i) (s i) (lane i tr) (qn i)) \/
  (exists i ts ks ts' tr q' pd, i < N /\ turns = ts ++ ks :: ts' /\ jitted_loop L So m dt prog (map (map as_step) ts) (q i) (s i) tr q' /\
     compiled_by (prog ++ calls_of (map (map as_step) ts) ++ map as_step ks) 0 pd /\ (forall s', solve L So m (tvec q') s' (under_jit pd) = Err NonFinite) /\ idle_barrier L (update L m q') pd).
Proof. intros H1 H2 H3 H4 H5 H6 H7 H8 H9 H10. exact (local_input m s0 i0 lo hi kk g1 g2 g3 lm d0 d1 px ft pb jb H1 H2 H3 H4 H5 H6 L So dt N pre q s H7 H8 H9 H10 ps). Qed.
Print Assumptions C122_local_input.
(** Two lanes of the robot of the tests, any number of turns, five calls in each. *)
Example C122_case n : exists t tm tr qn, fst (set_vmap_dimension 0 (state (setup rig (tscalar (-2)%R) (tscalar 2%R) [ee_task "tip"; ee_barrier "tip"; jnt_range] ++ [WCompile 0]))) = Ok t /\ set_axes ee_place t = Ok tm /\
  vmapped_gloop rig_lib tracing_grad bolder rig (1 / 100)%R 5 2 tm ((setup rig (tscalar (-2)%R) (tscalar 2%R) [ee_task "tip"; ee_barrier "tip"; jnt_range] ++ [WCompile 0]) ++ [WCompile 0]) (map ee_turn (other_poses :: repeat two_poses n)) two_starts (fun _ => 0%R) tr qn /\
  forall i, i < 2 -> jitted_gloop rig_lib tracing_grad bolder rig (1 / 100)%R 5 ((setup rig (tscalar (-2)%R) (tscalar 2%R) [ee_task "tip"; ee_barrier "tip"; jnt_range] ++ [WCompile 0]) ++ [WCompile 0]) (rows_of i (map ee_turn (other_poses :: repeat two_poses n))) (two_starts i) 0%R (lane i tr) (qn i).
Proof.
  refine (C122_global_output rig "tip" 4 (-2) 2 1 20 100 10 0 (1/100) 0 (3/10) (ee_task "tip") (ee_barrier "tip") jnt_range rig_lib tracing_grad bolder (1/100) 4 2 [WCompile 0] two_starts (fun _ => 0%R) (other_poses :: repeat two_poses n)
    rig_sound rig_tip _ (ee_task_new "tip") (ee_barrier_new "tip") jnt_range_new rig_lib_sound rig_wf _ _ (proj1 tracing_ok) _ _ _).
  - vm_compute; lia.
  - repeat constructor.
  - intros [|i] Hi; reflexivity.
  - intros g st. cbn. apply map_length.
  - constructor; [repeat split|]. apply Forall_forall. intros x Hx. apply repeat_spec in Hx. subst x. repeat split.
  - discriminate.
Qed.
