(** Exact forms of C34, C60, C61 and C76: for which motions the reported rates are right. *)
From Verif Require Import Base Lin LinFacts Mjx Typing Component SpecComponent SpecJoint SpecHistory SpecMotion SpecConf Rot Conf FrameJac JaxComponents Witness SpecTree SpecShape SpecValue SpecDeriv SpecRight.
From Verif Require Import ConfCases ValueCases DerivThms DerivThms2 DerivCases LogThms LogCases RightThms RightThms2.
Open Scope R_scope.

(** C34, frame and target unrotated: entry k of the reported rate is right exactly when that
    entry of (position x angular velocity, 0) is zero; angular entries always are. *)
Theorem C34_right_iff L mk on ty j q v p : let m := j_model j in sound_jac (l_jacrev L) -> 0 < l_eps L -> frame_task mk on ty j -> has_pose ty -> target_frame_is j q_one p -> mask_within 6 mk ->
  List.length q = m_nq m -> List.length v = m_nv m -> normalised m q -> (forall y, List.length y = m_nq m -> wf_data m (update L m y)) ->
  exists i, has_object m ty on (Z.of_nat i) /\ forall x J0, (forall y, List.length y = m_nq m -> exists M x, pose_is (update L m y) ty i M x) ->
    pose_is (update L m q) ty i m3_id x -> get_frame_jacobian_world_aligned m (update L m q) (Z.of_nat i) ty = Ok J0 ->
    moves_with (data_after L m q v) ty i (linear_velocity J0 v) (angular_velocity J0 v) ->
    exists J, jacobian L j (update L m q) = Ok J /\ List.length J = List.length (axes 6 mk) /\
    forall k, (k < List.length (axes 6 mk))%nat ->
      (derivative_at_0 (fun t => nth k (value_after L j q v t) 0) (nth k (mv J v) 0) <-> nth (nth k (axes 6 mk) 0%nat) (cross3 (v3_list x) (angular_velocity J0 v) ++ [0; 0; 0]) 0 = 0).
Proof. exact (frame_right_iff L mk on ty j q v p). Qed.
Print Assumptions C34_right_iff.
(** C60: integrating the difference from q2 reaches the orientation of q1 only where they
    already agree (relative rotations so small or so near a half turn that jaxlie uses
    its series are not covered). *)
Theorem C60_right_iff eps m q1 q2 d : 0 < eps <= 1 / 2 -> wf_joints m -> List.length q1 = m_nq m -> List.length q2 = m_nq m ->
  normalised m q1 -> normalised m q2 -> joint_difference eps m q1 q2 = Ok d ->
  exists q', integrate m q2 d 1 = Ok q' /\ forall j a, quat_address m j a ->
    ordinary eps (q_mul (q_conj (quat_in q1 a)) (quat_in q2 a)) \/ same_rotation (quat_in q1 a) (quat_in q2 a) ->
    (same_rotation (quat_in q' a) (quat_in q1 a) <-> same_rotation (quat_in q1 a) (quat_in q2 a)).
Proof. exact (joint_difference_right_iff eps m q1 q2 d). Qed.
Print Assumptions C60_right_iff.
(** C61: the rate matrix gives the true rate of every entry exactly when no ball or free
    joint turns. *)
Theorem C61_right_iff m q v E : wf_joints m -> List.length q = m_nq m -> List.length v = m_nv m -> normalised m q -> jac_dq2v m q = Ok E ->
  ((forall i, (i < m_nq m)%nat -> derivative_at_0 (entry_after m q v i) (nth i (mv E v) 0)) <-> (forall j a b, quat_joint m j a b -> vec_in v b = v3_zero)).
Proof. exact (rate_right_iff m q v E). Qed.
Print Assumptions C61_right_iff.
(** C76: an automatic Jacobian gives the true rate of entry i exactly when that entry does
    not react to the turning part of the velocity. *)
Theorem C76_right_iff L j k q v w : let m := j_model j in sound_jac (l_jacrev L) -> automatic j -> kinematic L j -> wf_joints m -> smooth L j k q ->
  List.length q = m_nq m -> normalised m q -> d_qpos (update L m q) = q -> List.length v = m_nv m -> turning_part m v w ->
  exists J, jacobian L j (update L m q) = Ok J /\ is_mat k (m_nv m) J /\
  forall i, (i < k)%nat -> (derivative_at_0 (fun t => nth i (value_after L j q v t) 0) (nth i (mv J v) 0) <-> derivative_at_0 (fun t => nth i (value_after L j q w t) 0) 0).
Proof. exact (automatic_right_iff L j k q v w). Qed.
Print Assumptions C76_right_iff.

(** A ball joint and a hinge: every velocity has a turning part; a ball turned by a quarter. *)
Example C60_exact_case : wf_joints ball_hinge /\ normalised ball_hinge bh_q1 /\ normalised ball_hinge bh_q2 /\ joint_difference (1 / 100000) ball_hinge bh_q1 bh_q2 = Ok bh_d /\ quat_address ball_hinge 0 0 /\
  ordinary (1 / 100000) (q_mul (q_conj (quat_in bh_q1 0)) (quat_in bh_q2 0)) /\ jac_dq2v ball_hinge bh_q2 <> Err ValueError /\ quat_joint ball_hinge 0 0 0.
Proof.
  split; [apply chain_joints|]. split; [apply bh_normalised|]. split; [apply bh_normalised|]. split; [apply bh_difference; lra|]. split; [right; repeat split|].
  split; [|split; [vm_compute; discriminate|right; repeat split]].
  assert (S : cos (PI / 4) * cos (PI / 4) = 1 / 2) by (rewrite cos_PI4; pose proof (sqrt_sqrt 2 ltac:(lra)) as H; replace (1 / sqrt 2 * (1 / sqrt 2)) with (/ (sqrt 2 * sqrt 2)) by (field; intros E; rewrite E in H; lra); rewrite H; lra).
  assert (P : 0 < cos (PI / 4)) by (apply cos_gt_0; pose proof PI_RGT_0; lra).
  split; unfold v3_norm2, v3_dot, quat_in; cbn; rewrite ?sin_cos_PI4.
  - match goal with |- _ <= ?x => replace x with (cos (PI / 4) * cos (PI / 4)) by ring end. lra.
  - match goal with |- _ <= Rabs ?x => replace x with (cos (PI / 4)) by ring end. rewrite Rabs_pos_eq by lra. nra.
Qed.
(** A tip on a ball joint, turned about the vertical axis: its height does not react. *)
Example C76_exact_case D : sound_jac D -> let L := joystick D in let j := spot [JBall] [0; 0; 0] in let m := j_model j in
  automatic j /\ kinematic L j /\ wf_joints m /\ smooth L j 3 [1; 0; 0; 0] /\ normalised m [1; 0; 0; 0] /\ d_qpos (update L m [1; 0; 0; 0]) = [1; 0; 0; 0] /\
  turning_part m [0; 0; 1] [0; 0; 1] /\ quat_joint m 0 0 0.
Proof.
  intros HD. cbv zeta. destruct ball_joint as (Hw & Hn & Ho). split; [now apply spot_automatic|]. split; [now apply spot_kinematic|]. split; [exact Hw|]. split; [now apply joystick_is_smooth|]. split; [exact Hn|]. split; [reflexivity|].
  split; [split; [reflexivity|split; [exact Ho|reflexivity]]|]. right. repeat split.
Qed.
