(** C124: where jaxlie approximates, the frame error is still close to an exact twist. *)
From Verif Require Import Base Lin LinFacts Mjx Typing Component SpecComponent SpecJoint SpecHistory Rot Conf FrameJac Collide JaxComponents Witness.
From Verif Require Import SpecCollision SpecTree SpecShape SpecContact SpecSelf SpecConf SpecValue SpecTwist SpecNear RotFacts ValueCases ValueThms2 TwistFacts TwistThms NearThms.
Open Scope R_scope.

(** For every pose and target the six numbers are close to a twist [l'], [w'] that leads
    exactly to the target: equal to it in the exact range, within [2 eps^2] for close
    orientations and within [3 eps] near half turns. The bound on the linear part is this
    times the distance to the target. *)
Theorem C124_error_is_close_to_a_twist L on ty j d q p : 0 < l_eps L <= 1 / 2 -> frame_task None on ty j -> has_pose ty -> target_frame_is j q p -> wf_data (j_model j) d ->
  exists i, has_object (j_model j) ty on (Z.of_nat i) /\ forall M x, pose_is d ty i M x ->
  exists l w l' w' b, call L j d = Ok (v3_list l ++ v3_list w) /\ leads_to l' w' M x (q_mat q) p /\ v3_norm2 w' <= PI * PI /\
    deviation (l_eps L) M (q_mat q) b /\ within b w w' /\ within (b * sqrt (v3_norm2 (v3_sub p x))) l l'.
Proof. exact (frame_error_near L on ty j d q p). Qed.
Print Assumptions C124_error_is_close_to_a_twist.
(** One bound for all poses and targets. *)
Theorem C124_everywhere L on ty j d q p : 0 < l_eps L <= 1 / 2 -> frame_task None on ty j -> has_pose ty -> target_frame_is j q p -> wf_data (j_model j) d ->
  exists i, has_object (j_model j) ty on (Z.of_nat i) /\ forall M x, pose_is d ty i M x ->
  exists l w l' w', call L j d = Ok (v3_list l ++ v3_list w) /\ leads_to l' w' M x (q_mat q) p /\
    within (3 * l_eps L) w w' /\ within (3 * l_eps L * sqrt (v3_norm2 (v3_sub p x))) l l'.
Proof. exact (frame_error_everywhere L on ty j d q p). Qed.
Print Assumptions C124_everywhere.

(** With a mask the numbers are the selected entries of such a pair of vectors. *)
Theorem C124_masked L mk on ty j d q p : 0 < l_eps L <= 1 / 2 -> frame_task mk on ty j -> has_pose ty -> target_frame_is j q p -> wf_data (j_model j) d -> mask_within 6 mk ->
  exists i, has_object (j_model j) ty on (Z.of_nat i) /\ forall M x, pose_is d ty i M x ->
  exists l w l' w' b, call L j d = Ok (coords (axes 6 mk) (v3_list l ++ v3_list w)) /\ leads_to l' w' M x (q_mat q) p /\ v3_norm2 w' <= PI * PI /\
    deviation (l_eps L) M (q_mat q) b /\ within b w w' /\ within (b * sqrt (v3_norm2 (v3_sub p x))) l l'.
Proof. exact (frame_error_near_masked L mk on ty j d q p). Qed.
Print Assumptions C124_masked.

Definition tilted (w z : R) : Prop := let q := mkQ w 0 0 z in let j := frame_on None q (mkV 1 2 3) in let d := posed arm2 [0; 0; 0] (m3_list m3_id) in
  frame_task None "tip" OBody j /\ target_frame_is j q (mkV 1 2 3) /\ wf_data (j_model j) d /\ pose_is d OBody 2 m3_id v3_zero.
Lemma tilted_ok w z : w * w + z * z = 1 -> tilted w z.
Proof.
  intros H. unfold tilted. cbv zeta. destruct (frame_on_ok None (mkQ w 0 0 z) (mkV 1 2 3) (or_introl eq_refl)) as (A1 & A2 & A3); [unfold q_norm2; cbn; lra|].
  split; [exact A1|]. split; [exact A2|]. split; [rewrite A3; now apply posed_data|exact (posed_pose m3_id v3_zero rotation_id)].
Qed.
(** A frame without rotation at the origin, the target at (1, 2, 3) turned about z by a
    small angle, and by nearly a half turn; jaxlie's threshold for 32-bit floats. *)
Example C124_case : tilted (999999 / 1000001) (2000 / 1000001) /\ tilted (2000000 / 1000000000001) (999999999999 / 1000000000001) /\
  deviation (1 / 100000) m3_id (q_mat (mkQ (999999 / 1000001) 0 0 (2000 / 1000001))) (2 * (1 / 100000 * (1 / 100000))) /\
  deviation (1 / 100000) m3_id (q_mat (mkQ (2000000 / 1000000000001) 0 0 (999999999999 / 1000000000001))) (3 * (1 / 100000)).
Proof.
  split; [apply tilted_ok; lra|]. split; [apply tilted_ok; lra|]. split.
  - right. left. split; [|reflexivity]. unfold trace, m3_mul, m3_tr, m3_id, q_mat. cbn. lra.
  - right. right. split; [|reflexivity]. unfold trace, m3_mul, m3_tr, m3_id, q_mat. cbn. lra.
Qed.
