(** C59-C64, C66, C67: configuration space, object Jacobians, centre of mass. *)
From Verif Require Import Base Lin Mjx SpecJoint Witness Rot Conf FrameJac JaxComponents SpecMotion SpecConf SpecTree SpecShape ConfFacts ConfFacts2 ConfFacts4 TreeFacts FrameFacts ConfThms ConfCases.
Open Scope R_scope.

(** ** C59 *)
Theorem C59_joint_zero m : wf_joints m -> m_jnt_type m <> [] ->
  exists q, get_joint_zero m = Ok q /\ List.length q = m_nq m /\
  (forall j, scalar_joint m j -> nth (qpos_of m j) q 0 = 0) /\ (forall j, free_joint m j -> vec_in q (qpos_of m j) = v3_zero) /\
  (forall j a, quat_address m j a -> quat_in q a = q_one).
Proof. exact (joint_zero_spec m). Qed.
Print Assumptions C59_joint_zero.
Example C59_case : get_joint_zero floating = Ok [0; 0; 0; 1; 0; 0; 0; 0; 1; 0; 0; 0; 0] /\ wf_joints floating /\ free_joint floating 0 /\ scalar_joint floating 1 /\ quat_address floating 2 8.
Proof. split; [reflexivity|]. split; [apply chain_joints|]. split; [reflexivity|]. split; [exists JHinge; split; reflexivity|]. right. split; reflexivity. Qed.
(** Without any joint the call fails although the zero configuration exists (it is empty). *)
Theorem C59_no_joints_refuted : exists m, wf_joints m /\ m_nq m = 0%nat /\ get_joint_zero m = Err ValueError.
Proof. exists (chain []). split; [apply chain_joints|]. split; [reflexivity|]. exact (joint_zero_empty (chain []) eq_refl). Qed.
Print Assumptions C59_no_joints_refuted.

(** ** C60 *)
Theorem C60_joint_difference_partial eps m q1 q2 : 0 < eps <= 1 / 2 -> wf_joints m -> m_jnt_type m <> [] ->
  List.length q1 = m_nq m -> List.length q2 = m_nq m -> normalised m q1 -> normalised m q2 ->
  exists d, joint_difference eps m q1 q2 = Ok d /\ List.length d = m_nv m /\
    (forall j, scalar_joint m j -> nth (dof_of m j) d 0 = nth (qpos_of m j) q1 0 - nth (qpos_of m j) q2 0) /\
    (d = vzero (m_nv m) <-> same_pose m q1 q2) /\
    exists q', integrate m q2 d 1 = Ok q' /\ forall j, scalar_joint m j -> nth (qpos_of m j) q' 0 = nth (qpos_of m j) q1 0.
Proof. exact (joint_difference_facts eps m q1 q2). Qed.
Print Assumptions C60_joint_difference_partial.
Example C60_case : wf_joints ball_hinge /\ m_jnt_type ball_hinge <> [] /\ List.length bh_q1 = m_nq ball_hinge /\ List.length bh_q2 = m_nq ball_hinge /\
  normalised ball_hinge bh_q1 /\ normalised ball_hinge bh_q2 /\ joint_difference (1 / 100000) ball_hinge bh_q1 bh_q2 = Ok bh_d.
Proof. split; [apply chain_joints|]. split; [discriminate|]. split; [reflexivity|]. split; [reflexivity|]. split; [apply bh_normalised|]. split; [apply bh_normalised|]. apply bh_difference. lra. Qed.
(** On quaternion joints the difference leads from q1 to q2, not from q2 to q1. *)
Theorem C60_quaternion_part_leads_from_q1_to_q2 eps m q1 q2 d : 0 < eps <= 1 / 2 -> wf_joints m -> List.length q1 = m_nq m -> List.length q2 = m_nq m ->
  normalised m q1 -> normalised m q2 -> joint_difference eps m q1 q2 = Ok d ->
  exists q', integrate m q1 d 1 = Ok q' /\ forall j a, quat_address m j a -> ordinary eps (q_mul (q_conj (quat_in q1 a)) (quat_in q2 a)) -> same_rotation (quat_in q' a) (quat_in q2 a).
Proof. exact (joint_difference_direction eps m q1 q2 d). Qed.
Print Assumptions C60_quaternion_part_leads_from_q1_to_q2.
Theorem C60_same_orientation_refuted eps : 0 < eps <= 1 / 2 -> exists m q1 q2 v d, wf_joints m /\ List.length q2 = m_nq m /\ List.length v = m_nv m /\ normalised m q1 /\ normalised m q2 /\
  integrate m q2 v 1 = Ok q1 /\ joint_difference eps m q1 q2 = Ok d /\
  (exists i, (i < m_nv m)%nat /\ nth i d 0 = nth i v 0 /\ nth i v 0 > 0) /\ (exists i, (i < m_nv m)%nat /\ nth i d 0 = - nth i v 0 /\ nth i v 0 > 0).
Proof. exact (bh_refutes eps). Qed.
Print Assumptions C60_same_orientation_refuted.

(** ** C61 *)
Theorem C61_rate_matrix_partial m q : wf_joints m -> List.length q = m_nq m ->
  exists E, jac_dq2v m q = Ok E /\ is_mat (m_nq m) (m_nv m) E /\
  (forall j t i c, joint_type m j t -> (i < jnt_nq t)%nat -> (c < m_nv m)%nat -> (c < dof_of m j \/ dof_of m j + jnt_nv t <= c)%nat -> nth c (nth (qpos_of m j + i) E []) 0 = 0) /\
  forall v, List.length v = m_nv m ->
    (forall j, scalar_joint m j -> nth (qpos_of m j) (mv E v) 0 = nth (dof_of m j) v 0) /\
    (forall j, free_joint m j -> vec_in (mv E v) (qpos_of m j) = vec_in v (dof_of m j)) /\
    (forall j a b, quat_joint m j a b -> quat_in (mv E v) a = q_mul (quat_in q a) (q_pure (vec_in v b)) /\ dot (q_list (quat_in q a)) (q_list (quat_in (mv E v) a)) = 0).
Proof. exact (rate_matrix m q). Qed.
Print Assumptions C61_rate_matrix_partial.
(** The true rate: the matrix is right on hinges, slides and translations and
    twice too large on quaternions. *)
Theorem C61_true_rate_partial m q v E : wf_joints m -> List.length q = m_nq m -> List.length v = m_nv m -> normalised m q -> jac_dq2v m q = Ok E ->
  (forall j, scalar_joint m j -> derivative_at_0 (entry_after m q v (qpos_of m j)) (nth (qpos_of m j) (mv E v) 0)) /\
  (forall j i, free_joint m j -> (i < 3)%nat -> derivative_at_0 (entry_after m q v (qpos_of m j + i)) (nth (qpos_of m j + i) (mv E v) 0)) /\
  (forall j a b i, quat_joint m j a b -> (i < 4)%nat -> derivative_at_0 (entry_after m q v (a + i)) (nth (a + i) (mv E v) 0 / 2)).
Proof. exact (configuration_rate m q v E). Qed.
Print Assumptions C61_true_rate_partial.
Theorem C61_scale_refuted : exists m q v E i l, wf_joints m /\ List.length q = m_nq m /\ List.length v = m_nv m /\ normalised m q /\ jac_dq2v m q = Ok E /\
  derivative_at_0 (entry_after m q v i) l /\ nth i (mv E v) 0 = 2 * l /\ l <> 0.
Proof. exact scale_refuted. Qed.
Print Assumptions C61_scale_refuted.
Example C61_case : wf_joints ball_hinge /\ normalised ball_hinge bh_q1 /\ quat_joint ball_hinge 0 0 0 /\ scalar_joint ball_hinge 1 /\ jac_dq2v ball_hinge bh_q2 = Ok [[-0; -0; -0; 0]; [1 * 1 + 0; 1 * 0 + -0; 1 * 0 + 0; 0]; [1 * 0 + 0; 1 * 1 + 0; 1 * 0 + -0; 0]; [1 * 0 + -0; 1 * 0 + 0; 1 * 1 + 0; 0]; [0; 0; 0; 1]].
Proof. split; [apply chain_joints|]. split; [apply bh_normalised|]. split; [right; repeat split|]. split; [exists JHinge; split; reflexivity|]. vm_compute. reflexivity. Qed.

(** ** C62 *)
Theorem C62_skew_matrix v w : mv (skew_symmetric v) (v3_list w) = v3_list (cross v w) /\ tr 3 (skew_symmetric v) = mneg (skew_symmetric v).
Proof. exact (conj (skew_cross v w) (skew_antisym v)). Qed.
Print Assumptions C62_skew_matrix.
Theorem C62_attitude_jacobian q w : mv (attitude_jacobian q) (v3_list w) = q_list (q_mul q (q_pure w)) /\
  mv (tr 3 (attitude_jacobian q)) (q_list q) = vzero 3 /\ mm 3 (tr 3 (attitude_jacobian q)) (attitude_jacobian q) = mscale (q_norm2 q) (eye 3).
Proof. exact (conj (attitude_mul q w) (conj (attitude_orthogonal q) (attitude_gram q))). Qed.
Print Assumptions C62_attitude_jacobian.

(** ** C63 *)
Theorem C63_support_and_value m d ty i : wf_model m -> wf_data m d -> (i < count m ty)%nat ->
  exists J, get_frame_jacobian_world_aligned m d (Z.of_nat i) ty = Ok J /\ is_mat (m_nv m) 6 J /\
  forall k, (k < m_nv m)%nat ->
    (~ in_subtree m (dof_body m k) (carrier m ty i) -> nth k J [] = vzero 6) /\
    (in_subtree m (dof_body m k) (carrier m ty i) ->
       let axis := firstn 3 (nth k (d_cdof d) []) in let shift := skipn 3 (nth k (d_cdof d) []) in
       let centre := nth (Z.to_nat (nth (carrier m ty i) (m_body_rootid m) 0%Z)) (d_subtree_com d) [] in
       nth k J [] = vadd shift (cross3 axis (vsub (position d ty i) centre)) ++ axis).
Proof. exact (fun Hm Hd Hi => let '(ex_intro _ _ (ex_intro _ _ (ex_intro _ _ (ex_intro _ _ (conj _ (conj _ (conj _ (conj _ (conj _ (conj _ (conj _ W))))))))))) := world_jacobian m d Hm Hd ty i Hi in ex_intro _ _ (conj W (jacobian_rows m d Hm Hd ty i _ Hi W))). Qed.
Print Assumptions C63_support_and_value.
Theorem C63_local_is_rotated m d ty i J : wf_model m -> wf_data m d -> (i < count m ty)%nat -> get_frame_jacobian_world_aligned m d (Z.of_nat i) ty = Ok J ->
  exists J', get_frame_jacobian_local m d (Z.of_nat i) ty = Ok J' /\
  J' = map (fun row => rotate_back (orientation d ty i) (firstn 3 row) ++ rotate_back (orientation d ty i) (skipn 3 row)) J.
Proof. exact (fun Hm Hd => local_jacobian m d Hm Hd ty i J). Qed.
Print Assumptions C63_local_is_rotated.
Theorem C63_rigid_body_velocities m d ty1 i1 ty2 i2 J1 J2 v : wf_model m -> wf_data m d ->
  (i1 < count m ty1)%nat -> (i2 < count m ty2)%nat -> carrier m ty1 i1 = carrier m ty2 i2 ->
  get_frame_jacobian_world_aligned m d (Z.of_nat i1) ty1 = Ok J1 -> get_frame_jacobian_world_aligned m d (Z.of_nat i2) ty2 = Ok J2 ->
  angular_velocity J2 v = angular_velocity J1 v /\
  linear_velocity J2 v = vadd (linear_velocity J1 v) (cross3 (angular_velocity J1 v) (vsub (position d ty2 i2) (position d ty1 i1))).
Proof. exact (fun Hm Hd => rigid_velocity m d Hm Hd ty1 i1 ty2 i2 J1 J2 v). Qed.
Print Assumptions C63_rigid_body_velocities.
(** A body and the geom it carries, on a two-link arm. *)
Example C63_case : let m := arm2 in let d := straight m [0; 0] in wf_model m /\ wf_data m d /\ (1 < count m OGeom)%nat /\ (2 < count m OBody)%nat /\
  carrier m OGeom 1 = carrier m OBody 2 /\ in_subtree m (dof_body m 0) 2 /\ ~ in_subtree m (dof_body m 1) 1.
Proof.
  cbv zeta. split; [apply chain_model|]. split; [apply straight_data; reflexivity|]. split; [cbn; lia|]. split; [cbn; lia|]. split; [reflexivity|]. split.
  - apply st_child; [lia|]. constructor.
  - intros H. inversion H as [E|i Hi H1 E]; cbn in *; try discriminate. inversion H1 as [E1|i1 Hi1 H2 E1]; cbn in *; try discriminate. lia.
Qed.

(** ** C64 *)
Theorem C64_relative_transform_refuted :
  (exists m d a T, wf_model m /\ wf_data m d /\ get_transform d a a = Ok T /\ T <> se3_id) /\
  (exists m d a b c Tab Tbc Tac, wf_model m /\ wf_data m d /\ get_transform d a b = Ok Tab /\ get_transform d b c = Ok Tbc /\ get_transform d a c = Ok Tac /\ se3_mul Tbc Tab <> Tac).
Proof. exact transform_refuted. Qed.
Print Assumptions C64_relative_transform_refuted.
(** What is computed, and when it is right: the product of the two world poses;
    the pose of the destination when the source is the world frame. *)
Theorem C64_transform_from_world_partial m d a b : wf_model m -> wf_data m d -> (a < m_nbody m)%nat -> (b < m_nbody m)%nat ->
  exists Ta Tb, pose_of_body d a Ta /\ pose_of_body d b Tb /\ get_transform d (Z.of_nat a) (Z.of_nat b) = Ok (se3_mul Tb Ta) /\
  (Ta = se3_id -> get_transform d (Z.of_nat a) (Z.of_nat b) = Ok Tb).
Proof. exact (transform_facts m d a b). Qed.
Print Assumptions C64_transform_from_world_partial.
Example C64_case : pose_of_body two_frames 0 se3_id /\ pose_of_body two_frames 2 (mkS q_one (mkV 2 0 0)).
Proof. split; split; vm_compute; reflexivity. Qed.

(** ** C66 *)
Theorem C66_configuration_limit_partial m l la : (exists x, l = LFloat x /\ la = vconst (m_nv m) x) \/ (l = LArr (tvec la) /\ List.length la = m_nv m) ->
  exists G h, get_configuration_limit m l = Ok (G, h) /\ is_mat (2 * m_nv m) (m_nv m) G /\ List.length h = (2 * m_nv m)%nat /\
  forall v, List.length v = m_nv m -> (vle (mv G v) h <-> forall i, (i < m_nv m)%nat -> Rabs (nth i v 0) <= nth i la 0).
Proof. exact (limit_facts m l la). Qed.
Print Assumptions C66_configuration_limit_partial.
Example C66_case : exists G h, get_configuration_limit arm2 (LFloat 3) = Ok (G, h) /\ h = [3; 3; 3; 3] /\ ~ vle (mv G [1; 4]) h.
Proof.
  destruct (limit_facts arm2 (LFloat 3) [3; 3] (or_introl (ex_intro _ 3 (conj eq_refl eq_refl)))) as (G & h & E & _ & _ & H). exists G, h. split; [exact E|]. split; [injection E as _ <-; reflexivity|].
  intros C0. pose proof (proj1 (H [1; 4] eq_refl) C0) as C. specialize (C 1%nat (Nat.lt_succ_diag_r 1)). cbn in C. rewrite Rabs_right in C; lra.
Qed.
(** A scalar that is not a float is not broadcast: the call raises. *)
Theorem C66_integer_limit_refuted : forall m k, get_configuration_limit m (LInt k) = Err ValueError /\ get_configuration_limit m (LArr (tscalar (IZR k))) = Err ValueError.
Proof. exact (fun m k => conj eq_refl eq_refl). Qed.
Print Assumptions C66_integer_limit_refuted.

(** ** C67 *)
Theorem C67_subtree_centre_of_mass m xs L q d : wf_model m -> com_update L m q = Ok d -> mapM v3_of (d_xipos (kin L m q)) = Ok xs ->
  is_mat (m_nbody m) 3 (d_subtree_com d) /\
  forall b ds, (b < m_nbody m)%nat -> subtree_list m b ds ->
    let M := mass_of m ds in let c := nth b (d_subtree_com d) [] in
    (M < negligible_mass -> c = v3_list (nth b xs v3_zero)) /\ (negligible_mass <= M -> c = v3_list (v3_scale (/ M) (moment_of m xs ds))).
Proof. exact (com_facts m xs L q d). Qed.
Print Assumptions C67_subtree_centre_of_mass.
Theorem C67_subtrees_can_be_listed_and_root_covers_all m : wf_tree m -> (forall b, exists ds, subtree_list m b ds) /\ forall ds, subtree_list m 0 ds -> Permutation ds (seq 0 (m_nbody m)).
Proof. exact (fun Hw => conj (fun b => subtree_list_exists m b Hw) (fun ds => root_list m ds Hw)). Qed.
Print Assumptions C67_subtrees_can_be_listed_and_root_covers_all.
Example C67_case : wf_model arm2 /\ (exists d, com_update straight_lib arm2 [0; 0] = Ok d) /\ mapM v3_of (d_xipos (kin straight_lib arm2 [0; 0])) = Ok [mkV (INR 0) 0 0; mkV (INR 1) 0 0; mkV (INR 2) 0 0].
Proof. split; [apply chain_model|]. split; [eexists; reflexivity|reflexivity]. Qed.
