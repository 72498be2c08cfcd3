(** C76: Jacobians from automatic differentiation. *)
From Verif Require Import Base Lin Mjx Typing Component SpecComponent SpecJoint SpecHistory SpecMotion SpecConf Rot Conf JaxComponents Witness SpecTree SpecShape SpecValue SpecDeriv.
From Verif Require Import CompThms2 MotionFacts2 ValueCases FitFacts DerivThms DerivThms2 DerivCases.
Open Scope R_scope.

(** Only hinges and slides ([nq = nv]): the Jacobian applied to a velocity is the
    derivative of the value along the motion with this velocity. *)
Theorem C76_scalar_joints L j k q v : let m := j_model j in sound_jac (l_jacrev L) -> automatic j -> kinematic L j -> wf_joints m -> smooth L j k q ->
  List.length q = m_nq m -> m_nq m = m_nv m -> keeps_scalars L m -> List.length v = m_nv m ->
  exists J, jacobian L j (update L m q) = Ok J /\ is_mat k (m_nv m) J /\
  forall i, (i < k)%nat -> derivative_at_0 (fun t => nth i (value_after L j q v t) 0) (nth i (mv J v) 0).
Proof. exact (automatic_scalar L j k q v). Qed.
Print Assumptions C76_scalar_joints.
(** All joint types: the Jacobian applied to [v] is the derivative along the motion with
    [w], which turns ball and free joints twice as fast as [v].  Missing for the full
    property: [w] should be [v]; see the refutation below. *)
Theorem C76_motion_partial L j k q v w : let m := j_model j in sound_jac (l_jacrev L) -> automatic j -> kinematic L j -> wf_joints m -> smooth L j k q ->
  List.length q = m_nq m -> normalised m q -> d_qpos (update L m q) = q -> List.length v = m_nv m -> turns_twice m v w ->
  exists J, jacobian L j (update L m q) = Ok J /\ is_mat k (m_nv m) J /\
  forall i, (i < k)%nat -> derivative_at_0 (fun t => nth i (value_after L j q w t) 0) (nth i (mv J v) 0).
Proof. exact (automatic_along_motion L j k q v w). Qed.
Print Assumptions C76_motion_partial.
(** Position tasks and barriers, and centre-of-mass tasks, are [kinematic]. *)
Theorem C76_position_components_qualify L j : keeps_positions L (j_model j) ->
  (exists W lm o ty t, j_ext j = JTask W lm (JTPos o ty t)) \/ (exists s o ty lo hi li, j_ext j = JBarrier s (JBPos o ty lo hi li)) -> kinematic L j.
Proof. exact (kinematic_position L j). Qed.
Print Assumptions C76_position_components_qualify.
Theorem C76_com_tasks_qualify L j : let m := j_model j in wf_model m -> com_is_mean L m -> nth_error (m_body_rootid m) 0 = Some 0%Z ->
  (exists W lm t, j_ext j = JTask W lm (JTCom t)) -> kinematic L j.
Proof. exact (kinematic_com L j). Qed.
Print Assumptions C76_com_tasks_qualify.
Example C76_case D : sound_jac D -> let L := crank D in let j := spot [JHinge] [1; 2; 3] in let m := j_model j in
  position_task None "tip" OBody j /\ automatic j /\ kinematic L j /\ wf_joints m /\ (forall q, List.length q = 1%nat -> smooth L j 3 q) /\ keeps_scalars L m /\ m_nq m = 1%nat /\ m_nv m = 1%nat /\
  (forall q, List.length q = 1%nat -> value_at L j q = [cos (nth 0 q 0) - 1; sin (nth 0 q 0) - 2; 0 - 3]).
Proof.
  intros HD. cbv zeta. destruct (spot_ok JHinge [1; 2; 3] eq_refl) as (P & _ & Em & _). rewrite Em. split; [exact P|]. split; [now apply spot_automatic|]. split; [now apply spot_kinematic|].
  split; [apply sound_wf, chain_sound|]. split; [intros q Hq; now apply crank_smooth|]. split; [apply rig_scalars|]. split; [reflexivity|]. split; [reflexivity|].
  intros q Hq. unfold value_at, crank. rewrite spot_value. reflexivity.
Qed.
Example C76_com_case D : let L := crank D in let j := compiled [OpTargetCom (tvec [0; 0]); OpModel (chain [JHinge])] com_comp in
  com_task (Some (mvec [1; 1; 0]%Z)) j /\ wf_model (j_model j) /\ com_is_mean L (j_model j) /\ nth_error (m_body_rootid (j_model j)) 0 = Some 0%Z /\ exists W lm t, j_ext j = JTask W lm (JTCom t).
Proof.
  cbv zeta. split; [|split; [apply (chain_sound [JHinge])|split; [|split; [reflexivity|do 3 eexists; reflexivity]]]].
  - exists "com"%string, (tscalar 1), (tscalar 2), None, 0, com_comp. split; [unfold new_com_task, init_task; cbn; rewrite not_neg0; reflexivity|].
    eapply compiled_is; [reflexivity|constructor; [exact I|constructor; [apply chain_sound|constructor]]|split; [exact I|split; [vm_compute; reflexivity|exact I]]|eexists; vm_compute; reflexivity].
  - split; [cbn; lra|]. intros y Hy. exists [v3_zero; circle y]. split; [reflexivity|]. split; [reflexivity|]. split; [discriminate|].
    cbn. unfold v3_list, v3_scale, v3_add. cbn [vx vy vz v3_zero]. replace (0 + (1 + 0)) with 1 by ring. rewrite Rinv_1. repeat (apply f_equal2; [ring|]). reflexivity.
Qed.
Example C76_motion_case D : sound_jac D -> let L := joystick D in let j := spot [JBall] [1; 2; 3] in let m := j_model j in
  automatic j /\ kinematic L j /\ wf_joints m /\ smooth L j 3 [1; 0; 0; 0] /\ normalised m [1; 0; 0; 0] /\ d_qpos (update L m [1; 0; 0; 0]) = [1; 0; 0; 0] /\ turns_twice m [1; 2; 3] [2; 4; 6].
Proof.
  intros HD. cbv zeta. destruct (spot_ok JBall [1; 2; 3] eq_refl) as (_ & _ & Em & _). rewrite Em. split; [now apply spot_automatic|]. split; [now apply spot_kinematic|].
  destruct ball_joint as (Hw & Hn & _). split; [exact Hw|]. split; [now apply joystick_is_smooth|]. split; [exact Hn|]. split; [reflexivity|]. split; [reflexivity|]. split; [|split].
  - intros x (t & H & K). destruct x as [|[|x]]; try discriminate H. injection H as <-. discriminate K.
  - intros x H. destruct x as [|[|x]]; discriminate H.
  - intros x a b H. destruct H as [(H & _)|(H & -> & ->)]; destruct x as [|[|x]]; try discriminate H. unfold vec_in, v3_scale. cbn. apply f_equal3; ring.
Qed.
Example C76_sound_differentiation_exists : sound_jac true_jac.
Proof. exact true_jac_sound. Qed.

(** Motions in which only ball and free joints turn: the Jacobian reports twice the derivative. *)
Theorem C76_turning_doubled_refuted L j k q v : let m := j_model j in sound_jac (l_jacrev L) -> automatic j -> kinematic L j -> wf_joints m -> smooth L j k q ->
  List.length q = m_nq m -> normalised m q -> d_qpos (update L m q) = q -> List.length v = m_nv m -> only_turns m v ->
  exists J, jacobian L j (update L m q) = Ok J /\ is_mat k (m_nv m) J /\
  forall i, (i < k)%nat -> exists l, derivative_at_0 (fun t => nth i (value_after L j q v t) 0) l /\ nth i (mv J v) 0 = 2 * l.
Proof. exact (turning_twice L j k q v). Qed.
Print Assumptions C76_turning_doubled_refuted.
(** A ball joint carrying a body at distance one, and a position task on the body. *)
Theorem C76_ball_joint_refuted D : sound_jac D -> exists L j J, l_jacrev L = D /\ position_task None "tip" OBody j /\ wf_joints (j_model j) /\
  smooth L j 3 [1; 0; 0; 0] /\ normalised (j_model j) [1; 0; 0; 0] /\ only_turns (j_model j) [0; 0; 1] /\
  jacobian L j (update L (j_model j) [1; 0; 0; 0]) = Ok J /\ derivative_at_0 (fun t => nth 1 (value_after L j [1; 0; 0; 0] [0; 0; 1] t) 0) 1 /\ nth 1 (mv J [0; 0; 1]) 0 = 2.
Proof. exact (ball_refuted D). Qed.
Print Assumptions C76_ball_joint_refuted.
(** Custom tasks reading the centre of mass: the automatic Jacobian only runs forward
    kinematics, which does not compute it, and is zero. *)
Theorem C76_custom_com_zero_refuted L j W lm f g k q : let m := j_model j in sound_jac (l_jacrev L) -> j_ext j = JTask W lm (JTCustom f) ->
  (forall d, f d = g (d_subtree_com d)) -> (forall x, List.length (g x) = k) ->
  (forall y, d_subtree_com (kin L m y) = d_subtree_com (l_make_data L m)) -> wf_joints m -> List.length q = m_nq m -> List.length (d_qpos (update L m q)) = m_nq m ->
  jacobian L j (update L m q) = Ok (repeat (vzero (m_nv m)) k).
Proof. exact (custom_com_zero L j W lm f g k q). Qed.
Print Assumptions C76_custom_com_zero_refuted.
Theorem C76_custom_task_refuted D : sound_jac D -> exists L c j, l_jacrev L = D /\ constructed c /\ compiled_from c j /\
  jacobian L j (update L (j_model j) [0]) = Ok [[0]] /\ derivative_at_0 (fun t => nth 0 (value_after L j [0] [1] t) 0) 1.
Proof. exact (lean_refuted D). Qed.
Print Assumptions C76_custom_task_refuted.
