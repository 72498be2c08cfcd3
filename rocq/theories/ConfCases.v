(** Concrete configurations, trees and data; counterexamples of the
    configuration-space properties. *)
From Verif Require Import Base Lin LinFacts Mjx SpecJoint Witness Rot Conf IntegrateFacts FrameJac JaxComponents SpecMotion MotionFacts MotionFacts2 SpecConf SpecTree SpecShape ConfFacts ConfFacts2 ConfFacts3 ConfFacts4 TreeFacts.
Open Scope R_scope.

(** Chains are well-formed models. *)
Lemma zs_nth l i : nth i (zs l) 0%Z = Z.of_nat (nth i l 0%nat).
Proof. unfold zs. change 0%Z with (Z.of_nat 0). apply map_nth. Qed.
Lemma chain_tree ts : wf_tree (chain ts).
Proof.
  unfold wf_tree, chain. cbn [m_nbody m_body_parentid]. split; [lia|]. split; [cbn; now rewrite map_length, seq_length|].
  intros b Hb. rewrite zs_nth. destruct b as [|b]; [lia|]. cbn [nth]. rewrite seq_nth by lia. lia.
Qed.
Lemma chain_dofs ts : wf_dofs (chain ts).
Proof.
  unfold wf_dofs, chain. cbn [m_dof_bodyid m_nv m_nbody]. split.
  - assert (G : forall k, List.length (flat_map (fun p => repeat (Z.of_nat (S (fst p))) (jnt_nv (snd p))) (combine (seq k (List.length ts)) ts)) = total jnt_nv ts); [|apply G]. unfold total. induction ts as [|t ts IH]; intros k; [reflexivity|]. cbn [List.length seq combine flat_map fold_right]. rewrite app_length, repeat_length. cbn [snd]. now rewrite IH.
  - apply Forall_forall. intros x Hx. apply in_flat_map in Hx. destruct Hx as ((i & t) & Hi & Hx). apply repeat_spec in Hx. apply in_combine_l, in_seq in Hi. cbn [fst] in Hx. lia.
Qed.
Lemma chain_model ts : wf_model (chain ts).
Proof.
  split; [apply chain_joints|]. split; [apply chain_tree|]. split; [apply chain_dofs|]. unfold chain. cbn [m_body_rootid m_nbody m_geom_bodyid m_site_bodyid m_body_mass].
  split; [unfold zs; cbn; now rewrite map_length, repeat_length|].
  assert (K : forall l k, (forall i, In i l -> (i < k)%nat) -> Forall (in_range k) (zs l)).
  { intros l k H. apply Forall_forall. intros x Hx. unfold zs in Hx. apply in_map_iff in Hx. destruct Hx as (i & <- & Hi). specialize (H i Hi). unfold in_range. lia. }
  split; [|split; [|split; [constructor|cbn; now rewrite repeat_length]]].
  - destruct ts as [|t ts]; apply K; intros i [<-|Hi]; try (cbn; lia); [destruct Hi|]. apply repeat_spec in Hi. subst. cbn. lia.
  - apply K. intros i Hi. apply in_seq in Hi. lia.
Qed.

(** Simulation data of a chain lying along the x axis: body [i] at (i, 0, 0),
    all axes vertical. *)
Definition id9 : list R := [1; 0; 0; 0; 1; 0; 0; 0; 1].
Definition straight (m : mjmodel) (q : list R) : mjdata :=
  let n := m_nbody m in let g := List.length (m_geom_bodyid m) in let s := List.length (m_site_bodyid m) in
  {| d_qpos := q; d_xpos := map (fun i => [INR i; 0; 0]) (seq 0 n); d_xmat := repeat id9 n; d_xquat := repeat [1; 0; 0; 0] n;
     d_xipos := map (fun i => [INR i; 0; 0]) (seq 0 n); d_geom_xpos := map (fun i => [INR i; 1; 0]) (seq 1 g); d_geom_xmat := repeat id9 g;
     d_site_xpos := repeat [0; 0; 0] s; d_site_xmat := repeat id9 s; d_subtree_com := repeat [1; 0; 0] n;
     d_cdof := repeat [0; 0; 1; 0; 0; 0] (m_nv m); d_efc_pos := []; d_efc_is_equality := []; d_efc_J := [] |}.
Lemma repeat_mat {c} n (r : list R) : List.length r = c -> is_mat n c (repeat r n).
Proof. intros H. split; [apply repeat_length|]. apply Forall_forall. intros x Hx. now apply repeat_spec in Hx as ->. Qed.
Lemma map_mat {A c} (f : A -> list R) l n : List.length l = n -> (forall x, List.length (f x) = c) -> is_mat n c (map f l).
Proof. intros L H. split; [now rewrite map_length|]. apply Forall_forall. intros x Hx. apply in_map_iff in Hx. now destruct Hx as (y & <- & _). Qed.
Lemma straight_data m q : List.length q = m_nq m -> wf_data m (straight m q).
Proof.
  intros H. unfold wf_data, straight. cbn [d_qpos d_xpos d_xmat d_xquat d_xipos d_geom_xpos d_geom_xmat d_site_xpos d_site_xmat d_subtree_com d_cdof d_efc_pos d_efc_is_equality d_efc_J count].
  repeat (split; [first [assumption | now apply repeat_mat | (apply map_mat; [now rewrite seq_length|reflexivity]) | reflexivity]|]). constructor.
Qed.

(** ** C60: a ball joint and a hinge, both turned by a right angle. *)
Definition ball_hinge : mjmodel := chain [JBall; JHinge].
Definition bh_q2 : list R := [1; 0; 0; 0; 0].
Definition bh_v : list R := [0; 0; PI / 2; PI / 2].
Definition bh_q1 : list R := [cos (PI / 4); 0; 0; sin (PI / 4); PI / 2].
Definition bh_d : list R := [0; 0; - (PI / 2); PI / 2].
Lemma quarter : cos (PI / 4) * cos (PI / 4) = 1 / 2 /\ sin (PI / 4) * sin (PI / 4) = 1 / 2.
Proof.
  rewrite cos_PI4, sin_PI4. assert (S2 : sqrt 2 * sqrt 2 = 2) by (apply sqrt_sqrt; lra). assert (S0 : sqrt 2 <> 0) by (intros E; rewrite E in S2; lra).
  split; (replace (1 / sqrt 2 * (1 / sqrt 2)) with (1 / (sqrt 2 * sqrt 2)) by (field; exact S0)); rewrite S2; reflexivity.
Qed.
Lemma bh_integrates : integrate ball_hinge bh_q2 bh_v 1 = Ok bh_q1.
Proof.
  rewrite integrate_sized by (cbn; lia). unfold ball_hinge, chain. cbn [m_jnt_type integrate_from integrate_joint bind quat_at vec_at slice q_of v3_of firstn skipn bh_q2 bh_v jnt_nq jnt_nv q_list app].
  rewrite quat_integrate_step.
  assert (N : sqrt (v3_norm2 (mkV 0 0 (PI / 2))) = PI / 2).
  { unfold v3_norm2, v3_dot. cbn [vx vy vz]. replace (0 * 0 + 0 * 0 + PI / 2 * (PI / 2)) with (PI / 2 * (PI / 2)) by ring. apply sqrt_square. pose proof PI_RGT_0. lra. }
  assert (Sq : step_quat (mkV 0 0 (PI / 2)) 1 = mkQ (cos (PI / 4)) 0 0 (sin (PI / 4))).
  { unfold step_quat. cbv zeta. rewrite N. cbn [vx vy vz]. assert (P : PI / 2 <> 0) by (pose proof PI_RGT_0; intros E; lra). rewrite !safe_div_pos by exact P.
    replace (1 * (PI / 2) * (1 / 2)) with (PI / 4) by field. f_equal; try (field; lra). }
  rewrite Sq. replace (mkQ 1 0 0 0) with q_one by reflexivity. rewrite q_mul_one_l, q_normalize_unit.
  - unfold bh_q1, q_list. cbn [qw qx qy qz app]. replace (0 + 1 * (PI / 2)) with (PI / 2) by ring. reflexivity.
  - unfold q_norm2. cbn [qw qx qy qz]. destruct quarter as [-> ->]. lra.
Qed.
Lemma bh_difference eps : 0 < eps <= 1 / 2 -> joint_difference eps ball_hinge bh_q1 bh_q2 = Ok bh_d.
Proof.
  intros He. unfold joint_difference, ball_hinge, chain. cbn [m_jnt_type difference_from bind quat_at slice q_of firstn skipn bh_q1 bh_q2 Nat.add so3_rminus bc2 List.length Nat.eqb map combine fst snd concat_arrays List.concat app].
  assert (R : q_mul (q_conj (mkQ (cos (PI / 4)) 0 0 (sin (PI / 4)))) (mkQ 1 0 0 0) = mkQ (cos (PI / 4)) 0 0 (- sin (PI / 4))).
  { unfold q_mul, q_conj. cbn [qw qx qy qz]. f_equal; ring. }
  unfold so3_rminus. rewrite R. destruct quarter as [C S]. pose proof PI_RGT_0 as Hpi.
  assert (Cp : 0 < cos (PI / 4)) by (apply cos_gt_0; lra). assert (Sp : 0 < sin (PI / 4)) by (apply sin_gt_0; lra).
  assert (CS : cos (PI / 4) = sin (PI / 4)) by (rewrite cos_PI4, sin_PI4; reflexivity).
  unfold so3_log, so3_factor. set (n2 := v3_norm2 _). assert (En : n2 = 1 / 2) by (unfold n2, v3_norm2, v3_dot, q_im; cbn [qx qy qz vx vy vz]; lra).
  rewrite En. destruct (Rlt_dec (1 / 2) eps); [lra|]. cbn [qw q_im qx qy qz].
  assert (Sn : sqrt (1 / 2) = sin (PI / 4)) by (rewrite <- S; apply sqrt_square; lra). rewrite Sn. rewrite Rabs_right by lra.
  assert (Ce : ~ cos (PI / 4) < eps). { intros L. assert (cos (PI / 4) < 1 / 2) by lra. assert (cos (PI / 4) * cos (PI / 4) < 1 / 2 * (1 / 2)) by (apply Rmult_le_0_lt_compat; lra). lra. }
  destruct (Rlt_dec (cos (PI / 4)) eps); [contradiction|]. destruct (Rlt_dec (cos (PI / 4)) 0); [lra|].
  replace (sin (PI / 4) / cos (PI / 4)) with 1 by (rewrite CS; field; lra). rewrite atan_1.
  unfold bh_d, v3_list, v3_scale, q_im. cbn [vx vy vz app qx qy qz]. f_equal. f_equal; [ring|]. f_equal; [ring|]. f_equal; [field; lra|]. f_equal. ring.
Qed.
Lemma bh_normalised : normalised ball_hinge bh_q1 /\ normalised ball_hinge bh_q2.
Proof.
  assert (A : forall j a, quat_address ball_hinge j a -> a = 0%nat).
  { intros j a [[H ->]|[H ->]]; unfold joint_type in H; destruct j as [|[|[|j]]]; cbn in H; try discriminate; reflexivity. }
  split; intros j a H; rewrite (A j a H); unfold norm2_at, bh_q1, bh_q2; cbn [nth Nat.add]; [destruct quarter as [-> ->]|]; lra.
Qed.
Lemma bh_refutes eps : 0 < eps <= 1 / 2 -> exists m q1 q2 v d, wf_joints m /\ List.length q2 = m_nq m /\ List.length v = m_nv m /\ normalised m q1 /\ normalised m q2 /\
  integrate m q2 v 1 = Ok q1 /\ joint_difference eps m q1 q2 = Ok d /\
  (exists i, (i < m_nv m)%nat /\ nth i d 0 = nth i v 0 /\ nth i v 0 > 0) /\ (exists i, (i < m_nv m)%nat /\ nth i d 0 = - nth i v 0 /\ nth i v 0 > 0).
Proof.
  intros He. exists ball_hinge, bh_q1, bh_q2, bh_v, bh_d. split; [apply chain_joints|]. split; [reflexivity|]. split; [reflexivity|].
  split; [apply bh_normalised|]. split; [apply bh_normalised|]. split; [exact bh_integrates|]. split; [now apply bh_difference|]. pose proof PI_RGT_0.
  split; [exists 3%nat|exists 2%nat]; cbn; repeat split; try lia; lra.
Qed.

(** ** C61: the scale of the matrix on a ball joint. *)
Lemma normalised_chain_ball : normalised (chain [JBall]) [1; 0; 0; 0].
Proof.
  intros j a [[H ->]|[H ->]]; unfold joint_type in H; destruct j as [|[|j]]; cbn in H; try discriminate. unfold norm2_at. cbn. lra.
Qed.
Lemma scale_refuted : exists m q v E i l, wf_joints m /\ List.length q = m_nq m /\ List.length v = m_nv m /\ normalised m q /\ jac_dq2v m q = Ok E /\
  derivative_at_0 (entry_after m q v i) l /\ nth i (mv E v) 0 = 2 * l /\ l <> 0.
Proof.
  exists (chain [JBall]), [1; 0; 0; 0], [0; 0; 1]. destruct (jac_dq2v_spec (chain [JBall]) [1; 0; 0; 0] (chain_joints _) eq_refl) as (E & HE & _).
  exists E, 3%nat, (1 / 2). split; [apply chain_joints|]. split; [reflexivity|]. split; [reflexivity|]. split; [apply normalised_chain_ball|]. split; [exact HE|].
  destruct (rate_spec (chain [JBall]) [1; 0; 0; 0] [0; 0; 1] E (chain_joints _) eq_refl eq_refl HE) as (_ & _ & _ & Q).
  destruct (configuration_rate (chain [JBall]) [1; 0; 0; 0] [0; 0; 1] E (chain_joints _) eq_refl eq_refl normalised_chain_ball HE) as (_ & _ & D).
  assert (J : quat_joint (chain [JBall]) 0 0 0) by (right; repeat split). specialize (Q _ _ _ J). specialize (D _ _ _ 3%nat J ltac:(lia)).
  assert (V : nth 3 (mv E [0; 0; 1]) 0 = 1). { apply (f_equal qz) in Q. unfold quat_in, vec_in, q_mul, q_pure in Q. cbn in Q. rewrite Q. ring. }
  cbn [Nat.add] in D. rewrite V in *. split; [exact D|]. split; lra.
Qed.

(** ** C64: two frames at distance one. *)
Definition two_frames : mjdata := straight (chain [JHinge; JHinge]) [0; 0].
Definition at_x (x : R) : se3 := mkS q_one (mkV x 0 0).
Lemma at_x_mul x y : se3_mul (at_x x) (at_x y) = at_x (x + y).
Proof. unfold se3_mul, at_x. cbn [s_rot s_pos]. rewrite q_mul_one_l, q_app_one. f_equal. unfold v3_add. cbn [vx vy vz]. f_equal; ring. Qed.
Lemma two_frames_poses : get_transform_frame_to_world two_frames 1 = Ok (at_x 1) /\ get_transform_frame_to_world two_frames 2 = Ok (at_x 2).
Proof. split; vm_compute; reflexivity. Qed.
Lemma transform_refuted :
  (exists m d a T, wf_model m /\ wf_data m d /\ get_transform d a a = Ok T /\ T <> se3_id) /\
  (exists m d a b c Tab Tbc Tac, wf_model m /\ wf_data m d /\ get_transform d a b = Ok Tab /\ get_transform d b c = Ok Tbc /\ get_transform d a c = Ok Tac /\ se3_mul Tbc Tab <> Tac).
Proof.
  destruct two_frames_poses as [P1 P2]. assert (W : wf_model (chain [JHinge; JHinge])) by apply chain_model. assert (D : wf_data (chain [JHinge; JHinge]) two_frames) by (apply straight_data; reflexivity).
  assert (N : forall x y, at_x x = at_x y -> x = y) by (intros x y H; injection H; auto).
  split.
  - exists (chain [JHinge; JHinge]), two_frames, 1%Z, (at_x 2). split; [exact W|]. split; [exact D|]. unfold get_transform. rewrite P1. cbn [bind]. rewrite at_x_mul. split; [do 2 f_equal; ring|].
    intros E. apply (N 2 0) in E. lra.
  - exists (chain [JHinge; JHinge]), two_frames, 1%Z, 2%Z, 1%Z, (at_x 3), (at_x 3), (at_x 2). split; [exact W|]. split; [exact D|]. unfold get_transform. rewrite P1, P2. cbn [bind]. rewrite !at_x_mul.
    split; [do 2 f_equal; ring|]. split; [do 2 f_equal; ring|]. split; [do 2 f_equal; ring|]. intros E. apply N in E. lra.
Qed.

(** A simulator that lays the bodies out along the x axis whatever the configuration. *)
Definition straight_lib : lib := mkL (1 / 1000) (fun m => straight m []) (fun _ d => d) (fun _ d => d) (fun _ d => d) (fun _ _ => Err TypeError) (fun _ => None).
