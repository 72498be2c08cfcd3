(** Configuration-space properties assembled from the lemmas. *)
From Verif Require Import Base Lin LinFacts Mjx SpecJoint JointFacts Rot Conf FrameJac JaxComponents SpecMotion MotionFacts MotionFacts2 SpecConf SpecTree SpecShape ConfFacts ConfFacts2 ConfFacts3 ConfFacts4 TreeFacts FrameFacts.
Open Scope R_scope.

Lemma joint_difference_facts eps m q1 q2 : 0 < eps <= 1 / 2 -> wf_joints m -> m_jnt_type m <> [] ->
  List.length q1 = m_nq m -> List.length q2 = m_nq m -> normalised m q1 -> normalised m q2 ->
  exists d, joint_difference eps m q1 q2 = Ok d /\ List.length d = m_nv m /\
    (forall j, scalar_joint m j -> nth (dof_of m j) d 0 = nth (qpos_of m j) q1 0 - nth (qpos_of m j) q2 0) /\
    (d = vzero (m_nv m) <-> same_pose m q1 q2) /\
    exists q', integrate m q2 d 1 = Ok q' /\ forall j, scalar_joint m j -> nth (qpos_of m j) q' 0 = nth (qpos_of m j) q1 0.
Proof.
  intros He Hw Hne L1 L2 N1 N2. destruct (difference_spec eps m q1 q2 Hw Hne L1 L2) as (d & E & Ld & P). exists d.
  assert (S : forall j, scalar_joint m j -> nth (dof_of m j) d 0 = nth (qpos_of m j) q1 0 - nth (qpos_of m j) q2 0).
  { intros j (t & Hj & Hs). specialize (P j t Hj). rewrite <- (Nat.add_0_r (dof_of m j)). rewrite (slice_entries _ _ _ _ P); destruct t; try discriminate; cbn; try lia; reflexivity. }
  split; [exact E|]. split; [exact Ld|]. split; [exact S|]. split; [now apply (difference_zero eps)|].
  destruct (integrate_spec m Hw q2 d 1 L2 Ld) as (q' & Hi & _ & B & _). exists q'. split; [exact Hi|]. intros j Hj. pose proof (S j Hj) as X. destruct Hj as (t & Hj & Hs). rewrite (B j t Hj Hs), X. ring.
Qed.
Lemma joint_difference_direction eps m q1 q2 d : 0 < eps <= 1 / 2 -> wf_joints m -> List.length q1 = m_nq m -> List.length q2 = m_nq m ->
  normalised m q1 -> normalised m q2 -> joint_difference eps m q1 q2 = Ok d ->
  exists q', integrate m q1 d 1 = Ok q' /\ forall j a, quat_address m j a -> ordinary eps (q_mul (q_conj (quat_in q1 a)) (quat_in q2 a)) -> same_rotation (quat_in q' a) (quat_in q2 a).
Proof.
  intros He Hw L1 L2 N1 N2 Hd. assert (Hne : m_jnt_type m <> []) by (intros E; unfold joint_difference in Hd; rewrite E in Hd; discriminate).
  destruct (difference_spec eps m q1 q2 Hw Hne L1 L2) as (d' & E & Ld & P). rewrite Hd in E. injection E as <-.
  destruct (integrate_spec m Hw q1 d 1 L1 Ld) as (q' & Hi & _). exists q'. split; [exact Hi|]. intros j a Ha Hr.
  pose proof (N1 j a Ha) as U1. pose proof (N2 j a Ha) as U2. rewrite norm2_in in U1, U2.
  assert (X : exists b, quat_joint m j a b /\ vec_in d b = so3_log eps (q_mul (q_conj (quat_in q1 a)) (quat_in q2 a))).
  { destruct Ha as [[Hj ->]|[Hj ->]].
    - exists (dof_of m j + 3)%nat. split; [left; auto|]. specialize (P j JFree Hj). cbn [jnt_nv diff_piece] in P. unfold vec_in. rewrite <- !Nat.add_assoc. rewrite !(slice_entries _ _ _ _ P) by lia.
      unfold se3_log. cbn [se3_mul se3_inv s_rot]. match goal with |- context [v_inv ?e ?o ?p] => generalize (v_inv e o p) end. intros [x y z]. unfold v3_list. cbn [app nth Nat.add].
      match goal with |- _ = ?s => destruct s end. reflexivity.
    - exists (dof_of m j). split; [right; auto|]. specialize (P j JBall Hj). cbn [jnt_nv diff_piece] in P. unfold vec_in. rewrite <- (Nat.add_0_r (dof_of m j)) at 1. rewrite !(slice_entries _ _ _ _ P) by lia.
      match goal with |- _ = ?s => destruct s end. reflexivity. }
  destruct X as (b & Hb & X). rewrite (integrate_quat m q1 d 1 q' Hw L1 Ld Hi j a b Hb), X. apply integrate_log; auto.
Qed.

Lemma rate_matrix m q : wf_joints m -> List.length q = m_nq m ->
  exists E, jac_dq2v m q = Ok E /\ is_mat (m_nq m) (m_nv m) E /\
  (forall j t i c, joint_type m j t -> (i < jnt_nq t)%nat -> (c < m_nv m)%nat -> (c < dof_of m j \/ dof_of m j + jnt_nv t <= c)%nat -> nth c (nth (qpos_of m j + i) E []) 0 = 0) /\
  forall v, List.length v = m_nv m ->
    (forall j, scalar_joint m j -> nth (qpos_of m j) (mv E v) 0 = nth (dof_of m j) v 0) /\
    (forall j, free_joint m j -> vec_in (mv E v) (qpos_of m j) = vec_in v (dof_of m j)) /\
    (forall j a b, quat_joint m j a b -> quat_in (mv E v) a = q_mul (quat_in q a) (q_pure (vec_in v b)) /\ dot (q_list (quat_in q a)) (q_list (quat_in (mv E v) a)) = 0).
Proof.
  intros Hw Hq. destruct (jac_dq2v_spec m q Hw Hq) as (E & HE & ME & B). exists E. split; [exact HE|]. split; [exact ME|]. split.
  - intros j t i c Hj Hi Hc O. change (cell E (qpos_of m j + i) c = 0). rewrite (B j t i c Hj Hi Hc). nb; reflexivity.
  - intros v Hv. destruct (rate_spec m q v E Hw Hq Hv HE) as (_ & S1 & S2 & S3). split; [exact S1|]. split; [exact S2|]. intros j a b Hj. rewrite (S3 j a b Hj). split; [reflexivity|].
    pose proof (rate_tangent (quat_in q a) (vec_in v b)) as T. unfold dot, vmul, vmap2, q_list. cbn [combine map fst snd vsum]. lra.
Qed.

Lemma transform_facts m d a b : wf_model m -> wf_data m d -> (a < m_nbody m)%nat -> (b < m_nbody m)%nat ->
  exists Ta Tb, pose_of_body d a Ta /\ pose_of_body d b Tb /\ get_transform d (Z.of_nat a) (Z.of_nat b) = Ok (se3_mul Tb Ta) /\
  (Ta = se3_id -> get_transform d (Z.of_nat a) (Z.of_nat b) = Ok Tb).
Proof.
  intros Hm Hd Ha Hb. assert (F : forall i, (i < m_nbody m)%nat -> exists T, pose_of_body d i T /\ get_transform_frame_to_world d (Z.of_nat i) = Ok T).
  { intros i Hi. destruct Hd as (_ & X & _ & Q & _). pose proof X as [Lx _]. pose proof Q as [Lq _]. unfold get_transform_frame_to_world, pose_of_body.
    rewrite (jx_idx_Z (d_xquat d) _ []) by (unfold in_range; lia). cbn [bind]. rewrite (jx_idx_Z (d_xpos d) _ []) by (unfold in_range; lia). cbn [bind]. rewrite Nat2Z.id.
    destruct (len3 (nth i (d_xpos d) [])) as (p & Hp & Epx); [now apply (mat_in (r := m_nbody m))|].
    pose proof (mat_in _ i Q Hi) as L4. destruct (nth i (d_xquat d) []) as [|w [|x [|y [|z [|? ?]]]]]; try discriminate. exists (mkS (mkQ w x y z) p). cbn [q_of bind]. rewrite Hp. cbn [bind]. auto. }
  destruct (F a Ha) as (Ta & Pa & Ea). destruct (F b Hb) as (Tb & Pb & Eb). exists Ta, Tb. split; [exact Pa|]. split; [exact Pb|]. unfold get_transform. rewrite Ea, Eb. cbn [bind]. split; [reflexivity|].
  intros ->. now rewrite se3_mul_id_r.
Qed.

Lemma limit_facts m l la : (exists x, l = LFloat x /\ la = vconst (m_nv m) x) \/ (l = LArr (tvec la) /\ List.length la = m_nv m) ->
  exists G h, get_configuration_limit m l = Ok (G, h) /\ is_mat (2 * m_nv m) (m_nv m) G /\ List.length h = (2 * m_nv m)%nat /\
  forall v, List.length v = m_nv m -> (vle (mv G v) h <-> forall i, (i < m_nv m)%nat -> Rabs (nth i v 0) <= nth i la 0).
Proof.
  intros H. assert (Ll : List.length la = m_nv m) by (destruct H as [(x & _ & ->)|(_ & H)]; [apply vconst_length|exact H]).
  exists (mscale (-1) (eye (m_nv m)) ++ eye (m_nv m)), (la ++ la). split; [destruct H as [(x & -> & ->)|(-> & _)]; reflexivity|]. split; [|split].
  - destruct (mscale_is_mat _ _ (-1) _ (eye_is_mat (m_nv m))) as [A B]. destruct (eye_is_mat (m_nv m)) as [C D]. split; [rewrite app_length; lia|now apply Forall_app].
  - rewrite app_length. lia.
  - intros v Hv. now apply limit_rows.
Qed.

Lemma com_facts m xs L q d : wf_model m -> com_update L m q = Ok d -> mapM v3_of (d_xipos (kin L m q)) = Ok xs ->
  is_mat (m_nbody m) 3 (d_subtree_com d) /\
  forall b ds, (b < m_nbody m)%nat -> subtree_list m b ds ->
    let M := mass_of m ds in let c := nth b (d_subtree_com d) [] in
    (M < negligible_mass -> c = v3_list (nth b xs v3_zero)) /\ (negligible_mass <= M -> c = v3_list (v3_scale (/ M) (moment_of m xs ds))).
Proof.
  intros Hm HU Hx. unfold com_update in HU. rewrite Hx in HU. cbn [bind] in HU. destruct Hm as (_ & Hw & _ & _ & _ & _ & _ & Lm).
  destruct (Nat.eqb_spec (List.length xs) (List.length (m_body_mass m))) as [Lx|]; [|discriminate]. cbn [negb] in HU. injection HU as <-. cbn [d_subtree_com set_subtree_com].
  destruct (subtree_coms_spec m xs Hw ltac:(congruence) Lm) as [Ls S]. split.
  - split; [now rewrite map_length|]. apply Forall_forall. intros y Hy. apply in_map_iff in Hy. destruct Hy as (z & <- & _). reflexivity.
  - intros b ds Hb Hds. cbv zeta. rewrite (nth_indep _ [] (v3_list v3_zero)) by (rewrite map_length; lia). rewrite map_nth, (S b ds Hb Hds).
    assert (En : mjMINVAL = negligible_mass) by (unfold mjMINVAL, negligible_mass; field). rewrite En.
    split; intros H; destruct (Rlt_dec (mass_of m ds) negligible_mass); try reflexivity; lra.
Qed.
Lemma root_list m ds : wf_tree m -> subtree_list m 0 ds -> Permutation ds (seq 0 (m_nbody m)).
Proof.
  intros Hw (ND & H). apply NoDup_Permutation; [exact ND|apply seq_NoDup|]. intros i. rewrite H, in_seq. split; [lia|]. intros Hi. split; [lia|]. apply root_subtree; [exact Hw|lia].
Qed.
