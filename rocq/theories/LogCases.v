(** A frame task on a body turned by a hinge, and on a sliding body. *)
From Coq Require Import Lia.
From Verif Require Import Base Lin Mjx Typing Component SpecComponent SpecJoint SpecHistory SpecMotion SpecConf Rot Conf FrameJac JaxComponents Witness SpecTree SpecShape SpecValue SpecDeriv.
From Verif Require Import LinFacts CompThms2 ConfCases ValueCases MotionFacts2 ConfFacts4 ValueFacts4 FitFacts DerivFacts DerivThms DerivThms2 DerivCases LogFacts2 LogThms.
Open Scope R_scope.

Definition grip (t0 : jnttype) (p : v3) : jaxc := compiled [OpTargetFrame (FSE3 (tvec (q_list q_one ++ v3_list p))); OpModel (chain [t0])] (frame_comp None).
Lemma grip_ok t0 p : frame_task None "tip" OBody (grip t0 p) /\ target_frame_is (grip t0 p) q_one p /\ j_model (grip t0 p) = chain [t0].
Proof.
  split; [|split; [split; [unfold q_norm2, q_one; cbn; ring|]|]].
  - exists "pose"%string, (tscalar 1), (tscalar 2), None, 0, (frame_comp None). split; [exact (frame_comp_new None)|].
    eapply compiled_is; [reflexivity|constructor; [exact I|constructor; [apply chain_sound|constructor]]|split; [exact I|split; [vm_compute; reflexivity|exact I]]|eexists; vm_compute; reflexivity].
  - do 4 eexists. vm_compute. reflexivity.
  - reflexivity.
Qed.
Lemma rig_wf D pos rot anchor t q : List.length q = jnt_nq t -> wf_data (chain [t]) (update (rig D pos rot anchor) (chain [t]) q).
Proof.
  intros Hq. unfold wf_data, is_mat. cbn [update rig l_make_constraint l_com_pos kin l_kinematics l_make_data set_qpos rig_kin rig_com d_qpos d_xpos d_xmat d_xquat d_xipos d_geom_xpos d_geom_xmat d_site_xpos d_site_xmat d_subtree_com d_cdof d_efc_pos d_efc_is_equality d_efc_J blank].
  repeat split; try (rewrite Hq; cbn; lia); try apply repeat_length; try (repeat constructor; fail).
  apply Forall_forall. intros r Hr. apply repeat_spec in Hr. subst r. reflexivity.
Qed.
Lemma turn_rotation t : is_rotation (turn_z t).
Proof.
  pose proof (sin2_cos2 t) as H. unfold Rsqr in H. unfold is_rotation, turn_z, m3_mul, m3_tr, m3_id, m3_det. cbn. split; [|split]; [f_equal| f_equal|]; nra.
Qed.
Lemma crank_pose D y : pose_is (update (crank D) (chain [JHinge]) y) OBody 1 (turn_z (nth 0 y 0)) (circle y).
Proof. split; [apply turn_rotation|]. split; reflexivity. Qed.
Lemma crank_start D : pose_is (update (crank D) (chain [JHinge]) [0]) OBody 1 m3_id (mkV 1 0 0).
Proof.
  destruct (crank_pose D [0]) as (R & O & P). cbn [nth] in *. unfold turn_z, circle in *. cbn [nth] in *. rewrite cos_0, sin_0, Ropp_0 in *. split; [exact R|]. split; [exact O|exact P].
Qed.
Lemma crank_axes D : exists J0, get_frame_jacobian_world_aligned (chain [JHinge]) (update (crank D) (chain [JHinge]) [0]) (Z.of_nat 1) OBody = Ok J0 /\
  linear_velocity J0 [1] = [0; 1; 0] /\ angular_velocity J0 [1] = [0; 0; 1].
Proof.
  eexists. split; [reflexivity|]. unfold linear_velocity, angular_velocity. cbn. rewrite cos_0, sin_0. split; repeat (apply f_equal2; [ring|]); reflexivity.
Qed.
Lemma go t0 t : is_scalar t0 = true -> integrate (chain [t0]) [0] [1] t = Ok [t].
Proof. intros H. destruct t0; try discriminate; cbn; do 2 f_equal; ring. Qed.
Lemma crank_moves D : moves_with (data_after (crank D) (chain [JHinge]) [0] [1]) OBody 1 [0; 1; 0] [0; 0; 1].
Proof.
  assert (A : forall t, data_after (crank D) (chain [JHinge]) [0] [1] t = update (crank D) (chain [JHinge]) [t]) by (intros t; unfold data_after; now rewrite go).
  assert (P : forall t, position (data_after (crank D) (chain [JHinge]) [0] [1] t) OBody 1 = [cos t; sin t; 0]) by (intros t; rewrite A; reflexivity).
  assert (O : forall t, orientation (data_after (crank D) (chain [JHinge]) [0] [1] t) OBody 1 = [cos t; - sin t; 0; sin t; cos t; 0; 0; 0; 1]) by (intros t; rewrite A; reflexivity).
  assert (C : dv cos 1 0) by (split; [apply cos_0|pose proof (derivable_pt_lim_cos 0) as H; rewrite sin_0, Ropp_0 in H; exact H]).
  assert (S : dv sin 0 1) by (split; [apply sin_0|pose proof (derivable_pt_lim_sin 0) as H; rewrite cos_0 in H; exact H]).
  split.
  - intros c Hc. eapply derivative_ext; [intros t; rewrite P; reflexivity|]. destruct c as [|[|[|c]]]; [| | |lia]; cbn [nth]; [apply C|apply S|apply dv_const with (c := 0)].
  - intros r c Hr Hc. eapply derivative_ext; [intros t; rewrite O; reflexivity|]. rewrite O, cos_0, sin_0. pose proof (dv_opp _ _ _ S) as S'.
    destruct r as [|[|[|r]]]; [| | |lia]; (destruct c as [|[|[|c]]]; [| | |lia]); cbn [nth Nat.add Nat.mul]; unfold cross3, col3; cbn [nth Nat.add];
    lazymatch goal with |- derivative_at_0 ?F ?g => cut (exists c, dv F c g); [intros (c' & _ & K); exact K|] end; eexists; (eapply dv_eq; [reflexivity| |first [exact C|exact S|exact S'|apply dv_const]]); ring.
Qed.

Lemma crank_refuted D : sound_jac D -> exists L j J l, l_jacrev L = D /\ frame_task None "tip" OBody j /\ target_frame_is j q_one v3_zero /\
  (forall y, List.length y = 1%nat -> wf_data (j_model j) (update L (j_model j) y) /\ pose_is (update L (j_model j) y) OBody 1 (turn_z (nth 0 y 0)) (circle y)) /\
  jacobian L j (update L (j_model j) [0]) = Ok J /\ derivative_at_0 (fun t => nth 1 (value_after L j [0] [1] t) 0) l /\ l = - (1 / 2) /\ nth 1 (mv J [1]) 0 = - (3 / 2).
Proof.
  intros HD. destruct (grip_ok JHinge v3_zero) as (Hj & Ht & Em). pose proof (crank_start D) as HP. destruct (crank_axes D) as (J0 & HJ0 & El & Ew).
  assert (He : 0 < l_eps (crank D)) by (cbn; lra).
  assert (Hn : normalised (chain [JHinge]) [0]). { intros j a [[H _]|[H _]]; destruct j as [|[|j]]; discriminate H. }
  assert (U : forall k, has_object (chain [JHinge]) OBody "tip" (Z.of_nat k) -> k = 1%nat). { intros k [H|[H|[]]]; inversion H. lia. }
  assert (W : forall y, List.length y = 1%nat -> wf_data (chain [JHinge]) (update (crank D) (chain [JHinge]) y)) by (intros y Hy; apply (rig_wf D circle _ v3_zero JHinge y Hy)).
  destruct (frame_jacobian_defect (crank D) None "tip" OBody (grip JHinge v3_zero) [0] [1] v3_zero HD He Hj I Ht I eq_refl eq_refl Hn W) as (i & Ho & HB). rewrite Em in Ho, HB.
  apply U in Ho. subst i. destruct (HB (mkV 1 0 0) J0 (fun y _ => ex_intro _ _ (ex_intro _ _ (crank_pose D y))) HP HJ0 ltac:(rewrite El, Ew; apply crank_moves)) as (J & EJ & LJ & V). clear HB.
  destruct (frame_jac_unrotated (crank D) None "tip" OBody (grip JHinge v3_zero) (update (crank D) (chain [JHinge]) [0]) v3_zero HD He Hj I Ht (W [0] eq_refl) I) as (i & Ho & _ & HB). rewrite Em in Ho, HB.
  apply U in Ho. subst i. destruct (HB (mkV 1 0 0) J0 [1] HP HJ0) as (J' & EJ' & _ & MV). rewrite EJ in EJ'. apply Ok_inj in EJ'. subst J'.
  destruct (V 1%nat) as (l & Dl & El2); [cbn; lia|]. exists (crank D), (grip JHinge v3_zero), J, l. split; [reflexivity|]. split; [exact Hj|]. split; [exact Ht|]. rewrite Em.
  split; [intros y Hy; split; [now apply W|apply crank_pose]|]. split; [exact EJ|]. split; [exact Dl|]. rewrite MV in *. rewrite El, Ew in *. cbn in *. split; lra.
Qed.

(** A body on the axis of the hinge: it only turns. *)
Definition spin D : lib := rig D (fun _ => mkV 0 0 1) (fun q => turn_z (nth 0 q 0)) v3_zero.
Lemma spin_pose D y : pose_is (update (spin D) (chain [JHinge]) y) OBody 1 (turn_z (nth 0 y 0)) (mkV 0 0 1).
Proof. split; [apply turn_rotation|]. split; reflexivity. Qed.
Lemma spin_axes D : exists J0, get_frame_jacobian_world_aligned (chain [JHinge]) (update (spin D) (chain [JHinge]) [0]) (Z.of_nat 1) OBody = Ok J0 /\
  linear_velocity J0 [1] = [0; 0; 0] /\ angular_velocity J0 [1] = [0; 0; 1].
Proof. eexists. split; [reflexivity|]. unfold linear_velocity, angular_velocity. cbn. split; repeat (apply f_equal2; [ring|]); reflexivity. Qed.
Lemma spin_case D : let L := spin D in let j := grip JHinge (mkV 1 2 3) in let m := j_model j in
  frame_task None "tip" OBody j /\ target_frame_is j q_one (mkV 1 2 3) /\ (forall y, List.length y = m_nq m -> wf_data m (update L m y)) /\ normalised m [0] /\
  (forall i, has_object m OBody "tip" (Z.of_nat i) -> i = 1%nat) /\ (forall y, List.length y = m_nq m -> exists M x, pose_is (update L m y) OBody 1 M x) /\ pose_is (update L m [0]) OBody 1 m3_id (mkV 0 0 1) /\
  exists J0, get_frame_jacobian_world_aligned m (update L m [0]) (Z.of_nat 1) OBody = Ok J0 /\ moves_with (data_after L m [0] [1]) OBody 1 (linear_velocity J0 [1]) (angular_velocity J0 [1]) /\
    angular_velocity J0 [1] = [0; 0; 1] /\ cross3 [0; 0; 1] (angular_velocity J0 [1]) = [0; 0; 0].
Proof.
  cbv zeta. destruct (grip_ok JHinge (mkV 1 2 3)) as (Hj & Ht & Em). rewrite Em. split; [exact Hj|]. split; [exact Ht|].
  split; [intros y Hy; apply (rig_wf D _ _ v3_zero JHinge y Hy)|]. split; [intros j a [[H _]|[H _]]; destruct j as [|[|j]]; discriminate H|].
  split; [intros k [H|[H|[]]]; inversion H; lia|]. split; [intros y Hy; do 2 eexists; apply spin_pose|]. split.
  { destruct (spin_pose D [0]) as (R & O & P). unfold turn_z in *. cbn [nth] in *. rewrite cos_0, sin_0, Ropp_0 in *. split; [exact R|]. split; [exact O|exact P]. }
  destruct (spin_axes D) as (J0 & HJ & El & Ew). exists J0. split; [exact HJ|].
  rewrite El, Ew. split; [|split; [reflexivity|unfold cross3; cbn [nth]; f_equal; [ring|f_equal; [ring|f_equal; ring]]]].
  assert (A : forall t, data_after (spin D) (chain [JHinge]) [0] [1] t = update (spin D) (chain [JHinge]) [t]) by (intros t; unfold data_after; now rewrite go).
  assert (P : forall t, position (data_after (spin D) (chain [JHinge]) [0] [1] t) OBody 1 = [0; 0; 1]) by (intros t; rewrite A; reflexivity).
  assert (O : forall t, orientation (data_after (spin D) (chain [JHinge]) [0] [1] t) OBody 1 = orientation (data_after (crank D) (chain [JHinge]) [0] [1] t) OBody 1).
  { intros t. unfold data_after. rewrite go by reflexivity. reflexivity. }
  destruct (crank_moves D) as [_ MO]. split.
  - intros c Hc. eapply derivative_ext; [intros t; rewrite P; reflexivity|]. destruct c as [|[|[|c]]]; [| | |lia]; cbn [nth]; [apply dv_const with (c := 0)|apply dv_const with (c := 0)|apply dv_const with (c := 1)].
  - intros r c Hr Hc. eapply derivative_ext; [intros t; rewrite O; reflexivity|]. rewrite O. now apply MO.
Qed.
