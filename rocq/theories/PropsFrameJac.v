(** C34: the frame task's hand-written Jacobian. *)
From Verif Require Import Base Lin Mjx Typing Component SpecComponent SpecJoint SpecHistory SpecMotion SpecConf Rot Conf FrameJac JaxComponents Witness SpecTree SpecShape SpecValue SpecDeriv.
From Verif Require Import DerivCases DerivThms2 LogThms LogCases.
Open Scope R_scope.

(** Proved part: the frame and its target are unrotated and the angular velocity is
    parallel to the position of the frame (in particular: the frame does not turn, or is at
    the origin).  Missing: all other motions; there the property is false, see below. *)
Theorem C34_unrotated_partial L mk on ty j q v p : let m := j_model j in sound_jac (l_jacrev L) -> 0 < l_eps L -> frame_task mk on ty j -> has_pose ty -> target_frame_is j q_one p -> mask_within 6 mk ->
  List.length q = m_nq m -> List.length v = m_nv m -> normalised m q -> (forall y, List.length y = m_nq m -> wf_data m (update L m y)) ->
  exists i, has_object m ty on (Z.of_nat i) /\ forall x J0, (forall y, List.length y = m_nq m -> exists M x, pose_is (update L m y) ty i M x) ->
    pose_is (update L m q) ty i m3_id x -> get_frame_jacobian_world_aligned m (update L m q) (Z.of_nat i) ty = Ok J0 ->
    moves_with (data_after L m q v) ty i (linear_velocity J0 v) (angular_velocity J0 v) -> cross3 (v3_list x) (angular_velocity J0 v) = [0; 0; 0] ->
    exists J, jacobian L j (update L m q) = Ok J /\ List.length J = List.length (axes 6 mk) /\
    forall k, (k < List.length (axes 6 mk))%nat -> derivative_at_0 (fun t => nth k (value_after L j q v t) 0) (nth k (mv J v) 0).
Proof. exact (frame_jacobian_exact L mk on ty j q v p). Qed.
Print Assumptions C34_unrotated_partial.
(** A body on the axis of a hinge, target elsewhere. *)
Example C34_case D : let L := spin D in let j := grip JHinge (mkV 1 2 3) in let m := j_model j in
  frame_task None "tip" OBody j /\ target_frame_is j q_one (mkV 1 2 3) /\ (forall y, List.length y = m_nq m -> wf_data m (update L m y)) /\ normalised m [0] /\
  (forall i, has_object m OBody "tip" (Z.of_nat i) -> i = 1%nat) /\ (forall y, List.length y = m_nq m -> exists M x, pose_is (update L m y) OBody 1 M x) /\ pose_is (update L m [0]) OBody 1 m3_id (mkV 0 0 1) /\
  exists J0, get_frame_jacobian_world_aligned m (update L m [0]) (Z.of_nat 1) OBody = Ok J0 /\ moves_with (data_after L m [0] [1]) OBody 1 (linear_velocity J0 [1]) (angular_velocity J0 [1]) /\
    angular_velocity J0 [1] = [0; 0; 1] /\ cross3 [0; 0; 1] (angular_velocity J0 [1]) = [0; 0; 0].
Proof. exact (spin_case D). Qed.

(** In general (unrotated frame and target): the reported rate exceeds the derivative by the
    cross product of the frame's position and its angular velocity. *)
Theorem C34_defect_refuted L mk on ty j q v p : let m := j_model j in sound_jac (l_jacrev L) -> 0 < l_eps L -> frame_task mk on ty j -> has_pose ty -> target_frame_is j q_one p -> mask_within 6 mk ->
  List.length q = m_nq m -> List.length v = m_nv m -> normalised m q -> (forall y, List.length y = m_nq m -> wf_data m (update L m y)) ->
  exists i, has_object m ty on (Z.of_nat i) /\ forall x J0, (forall y, List.length y = m_nq m -> exists M x, pose_is (update L m y) ty i M x) ->
    pose_is (update L m q) ty i m3_id x -> get_frame_jacobian_world_aligned m (update L m q) (Z.of_nat i) ty = Ok J0 ->
    moves_with (data_after L m q v) ty i (linear_velocity J0 v) (angular_velocity J0 v) ->
    exists J, jacobian L j (update L m q) = Ok J /\ List.length J = List.length (axes 6 mk) /\
    forall k, (k < List.length (axes 6 mk))%nat -> exists l, derivative_at_0 (fun t => nth k (value_after L j q v t) 0) l /\
      nth k (mv J v) 0 = l + nth (nth k (axes 6 mk) 0%nat) (cross3 (v3_list x) (angular_velocity J0 v) ++ [0; 0; 0]) 0.
Proof. exact (frame_jacobian_defect L mk on ty j q v p). Qed.
Print Assumptions C34_defect_refuted.
(** A crank: hinge at the origin about the vertical axis, the body at distance one, target
    at the origin.  The second entry of the error changes with rate -1/2, reported is -3/2. *)
Theorem C34_crank_refuted D : sound_jac D -> exists L j J l, l_jacrev L = D /\ frame_task None "tip" OBody j /\ target_frame_is j q_one v3_zero /\
  (forall y, List.length y = 1%nat -> wf_data (j_model j) (update L (j_model j) y) /\ pose_is (update L (j_model j) y) OBody 1 (turn_z (nth 0 y 0)) (circle y)) /\
  jacobian L j (update L (j_model j) [0]) = Ok J /\ derivative_at_0 (fun t => nth 1 (value_after L j [0] [1] t) 0) l /\ l = - (1 / 2) /\ nth 1 (mv J [1]) 0 = - (3 / 2).
Proof. exact (crank_refuted D). Qed.
Print Assumptions C34_crank_refuted.
