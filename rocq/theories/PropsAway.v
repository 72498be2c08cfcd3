(** C126: does a frame task move its frame towards the target? *)
From Verif Require Import Base Lin Mjx Typing Component Problem SpecComponent SpecJoint SpecHistory SpecMotion SpecConf Rot Conf FrameJac JaxComponents LocalIK Witness SpecTree SpecShape SpecValue SpecDeriv SpecQP SpecSolve SpecDescent SpecFit SpecProblem.
From Verif Require Import ConfCases DerivCases LogCases AwayThms AwayCases.
Open Scope R_scope.

(** A hinge at (3/2, 0, 0) holds a body at distance 1/2, which is at (1, 0, 0), unrotated.
    The only component of the problem is a frame task of gain 2 with the unrotated target
    (1, 1, 0).  Standing still is allowed, there is exactly one best velocity, and with it
    the squared error grows at rate 2/3. *)
Theorem C126_moves_away_refuted D : sound_jac D -> exists L os pd j v l, l_jacrev L = D /\ tidy (j_model j) os /\ compiled_by os 0 pd /\ comps_of pd = [j] /\ frame_task None "tip" OBody j /\ target_frame_is j q_one (mkV 1 1 0) /\ uniform 2 j /\
  (forall y, List.length y = 1%nat -> wf_data (j_model j) (update L (j_model j) y) /\ pose_is (update L (j_model j) y) OBody 1 (turn_z (nth 0 y 0)) (arc 1 y)) /\
  admissible L (update L (j_model j) [0]) pd [0] /\ (forall u, best L (update L (j_model j) [0]) pd u <-> u = v) /\
  derivative_at_0 (fun t => sq (value_after L j [0] v t)) l /\ l = 2 / 3.
Proof. exact (away_refuted D). Qed.
Print Assumptions C126_moves_away_refuted.

(** What holds: a task that is alone in the problem and whose Jacobian reports the right
    rates along the best velocity does not move away (the weighted squared error falls at
    least as fast as the square of the weighted velocity of the error). *)
Theorem C126_right_rates_partial L pd j q v g n J : comps_of pd = [j] -> seeks j = true -> uniform g j -> nonneg_weights j -> well_shaped L (m_nv (jd_model pd)) (update L (j_model j) q) j ->
  best L (update L (j_model j) q) pd v -> admissible L (update L (j_model j) q) pd (vzero (m_nv (jd_model pd))) ->
  integrate (j_model j) q v 0 = Ok q -> (forall t, List.length (value_after L j q v t) = n) -> call L j (update L (j_model j) q) = Ok (value_after L j q v 0) ->
  jacobian L j (update L (j_model j) q) = Ok J -> (forall k, (k < n)%nat -> derivative_at_0 (fun t => nth k (value_after L j q v t) 0) (nth k (mv J v) 0)) ->
  exists l, derivative_at_0 (fun t => g / 2 * sq (mv (weight_of j) (value_after L j q v t))) l /\ l <= - sq (mv (weight_of j) (mv J v)).
Proof. exact (lone_descends L pd j q v g n J). Qed.
Print Assumptions C126_right_rates_partial.
(** For an unrotated frame with an unrotated target these are the poses for which the
    position of the frame is parallel to its angular velocity, for instance all frames in
    the origin and all robots of slide joints. *)
Theorem C126_no_lever_partial L mk on ty pd j q v p g : let m := j_model j in sound_jac (l_jacrev L) -> 0 < l_eps L -> frame_task mk on ty j -> has_pose ty -> target_frame_is j q_one p -> mask_within 6 mk ->
  comps_of pd = [j] -> jd_model pd = m -> uniform g j -> nonneg_weights j ->
  List.length q = m_nq m -> normalised m q -> (forall y, List.length y = m_nq m -> wf_data m (update L m y)) ->
  best L (update L m q) pd v -> admissible L (update L m q) pd (vzero (m_nv m)) ->
  exists i, has_object m ty on (Z.of_nat i) /\ forall x J0, (forall y, List.length y = m_nq m -> exists M x, pose_is (update L m y) ty i M x) ->
    pose_is (update L m q) ty i m3_id x -> get_frame_jacobian_world_aligned m (update L m q) (Z.of_nat i) ty = Ok J0 ->
    moves_with (data_after L m q v) ty i (linear_velocity J0 v) (angular_velocity J0 v) ->
    cross3 (v3_list x) (angular_velocity J0 v) = [0; 0; 0] ->
    exists l, derivative_at_0 (fun t => g / 2 * sq (mv (weight_of j) (value_after L j q v t))) l /\ l <= 0.
Proof. exact (frame_descends L mk on ty pd j q v p g). Qed.
Print Assumptions C126_no_lever_partial.
(** The lever of the refutation, moved so that the body starts in the origin, meets the
    hypotheses: the best velocity is -2/3, and the squared error falls at rate 2/3. *)
Example C126_no_lever_case D : sound_jac D -> let L := lever 0 D in let pd := away_pd 0 in let j := grip JHinge (mkV 0 1 0) in let m := j_model j in let v := [- (2 / 3)] in
  0 < l_eps L /\ frame_task None "tip" OBody j /\ target_frame_is j q_one (mkV 0 1 0) /\ comps_of pd = [j] /\ jd_model pd = m /\ uniform 2 j /\ nonneg_weights j /\ normalised m [0] /\
  (forall y, List.length y = m_nq m -> wf_data m (update L m y)) /\ best L (update L m [0]) pd v /\ admissible L (update L m [0]) pd (vzero (m_nv m)) /\
  (forall i, has_object m OBody "tip" (Z.of_nat i) -> i = 1%nat) /\ (forall y, List.length y = m_nq m -> exists M x, pose_is (update L m y) OBody 1 M x) /\ pose_is (update L m [0]) OBody 1 m3_id (mkV 0 0 0) /\
  exists J0, get_frame_jacobian_world_aligned m (update L m [0]) (Z.of_nat 1) OBody = Ok J0 /\ moves_with (data_after L m [0] v) OBody 1 (linear_velocity J0 v) (angular_velocity J0 v) /\
    angular_velocity J0 v = [0; 0; - (2 / 3)] /\ cross3 (v3_list (mkV 0 0 0)) (angular_velocity J0 v) = [0; 0; 0] /\ derivative_at_0 (fun t => sq (value_after L j [0] v t)) (- (2 / 3)).
Proof. exact (near_case D). Qed.
