(** C127: does a task whose Jacobian is computed by differentiation move towards its target? *)
From Verif Require Import Base Lin Mjx Typing Component Problem SpecComponent SpecJoint SpecHistory SpecMotion SpecConf Rot Conf FrameJac JaxComponents LocalIK Witness SpecTree SpecShape SpecValue SpecDeriv SpecQP SpecSolve SpecDescent SpecFit SpecProblem.
From Verif Require Import ConfCases DerivCases DriftThms DriftCases.
Open Scope R_scope.

(** A carriage on a rail in direction (24/25, 0, 7/25) holds a rod of length one on a ball
    joint (the position of its tip is [tip_of]).  The only component is a position task of
    gain 2 for the tip, with target (2, 0, 0).  Standing still is allowed, there are best
    velocities, and with each of them the squared error grows at rate 12/7. *)
Theorem C127_moves_away_refuted D : sound_jac D -> exists L os pd j q, l_jacrev L = D /\ tidy (j_model j) os /\ compiled_by os 0 pd /\ comps_of pd = [j] /\ position_task None "tip" OBody j /\ target_is j [2; 0; 0] /\ uniform 2 j /\
  List.length q = m_nq (j_model j) /\ normalised (j_model j) q /\ keeps_positions L (j_model j) /\ smooth L j 3 q /\
  (forall y, List.length y = m_nq (j_model j) -> wf_data (j_model j) (update L (j_model j) y) /\ position (update L (j_model j) y) OBody 2 = v3_list (tip_of y)) /\
  admissible L (update L (j_model j) q) pd (vzero (m_nv (j_model j))) /\ (exists v, best L (update L (j_model j) q) pd v) /\
  forall v, best L (update L (j_model j) q) pd v -> derivative_at_0 (fun t => sq (value_after L j q v t)) (12 / 7).
Proof. exact (drift_refuted D). Qed.
Print Assumptions C127_moves_away_refuted.

(** What holds: on a robot of hinge and slide joints the weighted squared error of a lone
    task does not grow along the best velocity. *)
Theorem C127_scalar_joints_partial L pd j k q v g : let m := j_model j in sound_jac (l_jacrev L) -> automatic j -> kinematic L j -> wf_joints m -> smooth L j k q -> List.length q = m_nq m ->
  comps_of pd = [j] -> jd_model pd = m -> seeks j = true -> uniform g j -> nonneg_weights j -> List.length (j_gain j) = k ->
  best L (update L m q) pd v -> admissible L (update L m q) pd (vzero (m_nv m)) -> m_nq m = m_nv m -> keeps_scalars L m ->
  exists l, derivative_at_0 (fun t => g / 2 * sq (mv (weight_of j) (value_after L j q v t))) l /\ l <= 0.
Proof. exact (lone_scalar L pd j k q v g). Qed.
Print Assumptions C127_scalar_joints_partial.
(** The same for a best velocity that moves ball joints and the rotations of free joints
    only: all rates are then reported twice as large as they are. *)
Theorem C127_turning_partial L pd j k q v g : let m := j_model j in sound_jac (l_jacrev L) -> automatic j -> kinematic L j -> wf_joints m -> smooth L j k q -> List.length q = m_nq m ->
  comps_of pd = [j] -> jd_model pd = m -> seeks j = true -> uniform g j -> nonneg_weights j -> List.length (j_gain j) = k ->
  best L (update L m q) pd v -> admissible L (update L m q) pd (vzero (m_nv m)) -> normalised m q -> d_qpos (update L m q) = q -> only_turns m v ->
  exists l, derivative_at_0 (fun t => g / 2 * sq (mv (weight_of j) (value_after L j q v t))) l /\ l <= 0.
Proof. exact (lone_turning L pd j k q v g). Qed.
Print Assumptions C127_turning_partial.
(** A hinge with a body at (1, 0, 0) and the target (1, 1, 0): the best velocity is 2. *)
Example C127_hinge_case D : sound_jac D -> let L := crank D in let j := spot [JHinge] [1; 1; 0] in let m := j_model j in
  compiled_by (one_prog JHinge) 0 hinge_pd /\ comps_of hinge_pd = [j] /\ jd_model hinge_pd = m /\ automatic j /\ kinematic L j /\ wf_joints m /\ smooth L j 3 [0] /\ seeks j = true /\ uniform 2 j /\ nonneg_weights j /\ List.length (j_gain j) = 3%nat /\
  best L (update L m [0]) hinge_pd [2] /\ admissible L (update L m [0]) hinge_pd (vzero (m_nv m)) /\ m_nq m = m_nv m /\ keeps_scalars L m.
Proof. exact (hinge_case D). Qed.
(** The same body on a ball joint: turning about the z axis at rate 1 is best, although
    rate 2 would be needed to move as asked. *)
Example C127_ball_case D : sound_jac D -> let L := joystick D in let j := spot [JBall] [1; 1; 0] in let m := j_model j in let q := [1; 0; 0; 0] in
  compiled_by (one_prog JBall) 0 ball_pd /\ comps_of ball_pd = [j] /\ jd_model ball_pd = m /\ automatic j /\ kinematic L j /\ wf_joints m /\ smooth L j 3 q /\ seeks j = true /\ uniform 2 j /\ nonneg_weights j /\ List.length (j_gain j) = 3%nat /\
  best L (update L m q) ball_pd [0; 0; 1] /\ admissible L (update L m q) ball_pd (vzero (m_nv m)) /\ normalised m q /\ d_qpos (update L m q) = q /\ only_turns m [0; 0; 1].
Proof. exact (ball_case D). Qed.
