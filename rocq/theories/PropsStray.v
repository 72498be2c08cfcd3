(** C126 and C127 for the velocity that the solver returns: [exact_at] says that the QP
    solver minimises the programme of the problem, nothing else is assumed of it. *)
From Verif Require Import Base Lin Mjx Typing Component Problem SpecComponent SpecJoint SpecHistory SpecMotion SpecConf Rot Conf FrameJac JaxComponents LocalIK Witness SpecTree SpecShape SpecValue SpecDeriv SpecQP SpecSolve SpecDescent SpecFit SpecProblem SpecDrift.
From Verif Require Import ConfCases DerivCases DerivThms2 LogCases AwayCases DriftCases DriftSolve.
Open Scope R_scope.

(** On the lever of C126 every exact solver returns a velocity with which the squared error
    grows at rate 2/3. *)
Theorem C126_solver_moves_away_refuted D : sound_jac D -> shaped_jac D -> exists L os pd j, l_jacrev L = D /\ let m := j_model j in tidy m os /\ compiled_by os 0 pd /\ sound_lib L m /\ comps_of pd = [j] /\ frame_task None "tip" OBody j /\ target_frame_is j q_one (mkV 1 1 0) /\ uniform 2 j /\
  admissible L (update L m [0]) pd [0] /\
  forall So v0, exact_at L So m pd (update L m [0]) -> exists s v, solve L So m (tvec [0]) v0 pd = Ok (s, v) /\ derivative_at_0 (fun t => sq (value_after L j [0] v t)) (2 / 3).
Proof. exact (away_solver_refuted D). Qed.
Print Assumptions C126_solver_moves_away_refuted.
(** There is such a solver. *)
Example C126_solver_case D : sound_jac D -> shaped_jac D -> exact_at (lever 1 D) (fun _ => mkSol [2 / 3] [] []) (chain [JHinge]) (away_pd 1) (update (lever 1 D) (chain [JHinge]) [0]).
Proof. exact (away_solver_case D). Qed.
(** For unrotated frames whose position is parallel to their angular velocity, the velocity
    that the solver returns does not increase the weighted squared error. *)
Theorem C126_solver_no_lever_partial L mk on ty os pi pd So q v0 s v j p g : let m := j_model j in tidy m os -> compiled_by os pi pd -> sound_lib L m -> List.length q = m_nq m -> Forall (accepted L (update L m q)) (comps_of pd) -> exact_at L So m pd (update L m q) ->
  solve L So m (tvec q) v0 pd = Ok (s, v) ->
  sound_jac (l_jacrev L) -> 0 < l_eps L -> frame_task mk on ty j -> has_pose ty -> target_frame_is j q_one p -> mask_within 6 mk ->
  comps_of pd = [j] -> jd_model pd = m -> uniform g j -> nonneg_weights j -> normalised m q -> (forall y, List.length y = m_nq m -> wf_data m (update L m y)) ->
  admissible L (update L m q) pd (vzero (m_nv m)) ->
  exists i, has_object m ty on (Z.of_nat i) /\ forall x J0, (forall y, List.length y = m_nq m -> exists M x, pose_is (update L m y) ty i M x) ->
    pose_is (update L m q) ty i m3_id x -> get_frame_jacobian_world_aligned m (update L m q) (Z.of_nat i) ty = Ok J0 ->
    moves_with (data_after L m q v) ty i (linear_velocity J0 v) (angular_velocity J0 v) ->
    cross3 (v3_list x) (angular_velocity J0 v) = [0; 0; 0] ->
    exists l, derivative_at_0 (fun t => g / 2 * sq (mv (weight_of j) (value_after L j q v t))) l /\ l <= 0.
Proof. exact (solver_frame L mk on ty os pi pd So q v0 s v j p g). Qed.
Print Assumptions C126_solver_no_lever_partial.
(** On the crane of C127 every exact solver returns a velocity with which the squared error
    grows at rate 12/7. *)
Theorem C127_solver_moves_away_refuted D : sound_jac D -> shaped_jac D -> exists L os pd j q, l_jacrev L = D /\ let m := j_model j in tidy m os /\ compiled_by os 0 pd /\ sound_lib L m /\ comps_of pd = [j] /\ position_task None "tip" OBody j /\ target_is j [2; 0; 0] /\ uniform 2 j /\
  List.length q = m_nq m /\ normalised m q /\ smooth L j 3 q /\ admissible L (update L m q) pd (vzero (m_nv m)) /\
  forall So v0, exact_at L So m pd (update L m q) -> exists s v, solve L So m (tvec q) v0 pd = Ok (s, v) /\ derivative_at_0 (fun t => sq (value_after L j q v t)) (12 / 7).
Proof. exact (drift_solver_refuted D). Qed.
Print Assumptions C127_solver_moves_away_refuted.
(** There is such a solver. *)
Example C127_solver_case D : sound_jac D -> shaped_jac D -> exact_at (crane D) (fun _ => mkSol [- (50 / 7); 0; 38 / 7; 0] [] []) rail drift_pd (update (crane D) rail up).
Proof. exact (drift_solver_case D). Qed.
(** On robots of hinge and slide joints the solver returns a velocity that does not increase
    the weighted squared error. *)
Theorem C127_solver_scalar_joints_partial L os pi pd So q v0 j k g : let m := j_model j in tidy m os -> compiled_by os pi pd -> sound_lib L m -> List.length q = m_nq m -> wf_data m (update L m q) -> Forall (accepted L (update L m q)) (comps_of pd) ->
  exact_at L So m pd (update L m q) -> sound_jac (l_jacrev L) -> automatic j -> kinematic L j -> wf_joints m -> smooth L j k q ->
  comps_of pd = [j] -> jd_model pd = m -> seeks j = true -> uniform g j -> nonneg_weights j -> List.length (j_gain j) = k ->
  admissible L (update L m q) pd (vzero (m_nv m)) -> m_nq m = m_nv m -> keeps_scalars L m ->
  exists s v, solve L So m (tvec q) v0 pd = Ok (s, v) /\ exists l, derivative_at_0 (fun t => g / 2 * sq (mv (weight_of j) (value_after L j q v t))) l /\ l <= 0.
Proof. exact (solver_scalar L os pi pd So q v0 j k g). Qed.
Print Assumptions C127_solver_scalar_joints_partial.
(** The hinge of C127 (the other hypotheses are in C127_hinge_case). *)
Example C127_solver_hinge_case D : sound_jac D -> shaped_jac D -> let L := crank D in let m := chain [JHinge] in let d := update L m [0] in
  tidy m (one_prog JHinge) /\ compiled_by (one_prog JHinge) 0 hinge_pd /\ sound_lib L m /\ wf_data m d /\ Forall (accepted L d) (comps_of hinge_pd) /\ exact_at L (fun _ => mkSol [2] [] []) m hinge_pd d /\
  solve L (fun _ => mkSol [2] [] []) m (tvec [0]) [] hinge_pd = Ok (mkSol [2] [] [], [2]).
Proof. exact (hinge_solver_case D). Qed.
(** The same on robots with ball joints only. *)
Theorem C127_solver_ball_joints_partial L os pi pd So q v0 j k g : let m := j_model j in tidy m os -> compiled_by os pi pd -> sound_lib L m -> List.length q = m_nq m -> wf_data m (update L m q) -> Forall (accepted L (update L m q)) (comps_of pd) ->
  exact_at L So m pd (update L m q) -> sound_jac (l_jacrev L) -> automatic j -> kinematic L j -> wf_joints m -> smooth L j k q ->
  comps_of pd = [j] -> jd_model pd = m -> seeks j = true -> uniform g j -> nonneg_weights j -> List.length (j_gain j) = k ->
  admissible L (update L m q) pd (vzero (m_nv m)) -> normalised m q -> d_qpos (update L m q) = q -> (forall i, ~ scalar_joint m i) -> (forall i, ~ free_joint m i) ->
  exists s v, solve L So m (tvec q) v0 pd = Ok (s, v) /\ exists l, derivative_at_0 (fun t => g / 2 * sq (mv (weight_of j) (value_after L j q v t))) l /\ l <= 0.
Proof. exact (solver_balls L os pi pd So q v0 j k g). Qed.
Print Assumptions C127_solver_ball_joints_partial.
(** The ball joint of C127 (the other hypotheses are in C127_ball_case). *)
Example C127_solver_ball_case D : sound_jac D -> shaped_jac D -> let L := joystick D in let m := chain [JBall] in let d := update L m [1; 0; 0; 0] in
  tidy m (one_prog JBall) /\ compiled_by (one_prog JBall) 0 ball_pd /\ sound_lib L m /\ wf_data m d /\ Forall (accepted L d) (comps_of ball_pd) /\ exact_at L (fun _ => mkSol [0; 0; 1] [] []) m ball_pd d /\
  (forall i, ~ scalar_joint m i) /\ (forall i, ~ free_joint m i).
Proof. exact (ball_solver_case D). Qed.
(** Differentiation with both properties exists. *)
Example C127_differentiation_exists : sound_jac true_jac /\ shaped_jac true_jac.
Proof. exact (conj true_jac_sound true_jac_shaped). Qed.
