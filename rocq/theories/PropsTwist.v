(** C123: the error of a frame task is the twist that leads the frame to its target. *)
From Verif Require Import Base Lin LinFacts Mjx Typing Component SpecComponent SpecJoint SpecHistory Rot Conf FrameJac Collide JaxComponents Witness.
From Verif Require Import SpecCollision SpecTree SpecShape SpecContact SpecSelf SpecConf SpecValue SpecTwist RotFacts ValueCases ValueThms2 TwistFacts TwistThms.
Open Scope R_scope.

(** The six numbers are a linear and an angular velocity in the frame of the object.
    There is a motion of the object with these constant velocities, and every such motion
    is at the target after one unit of time.  The rotation is by at most a half turn. *)
Theorem C123_error_leads_to_the_target L on ty j d q p : 0 < l_eps L <= 1 / 2 -> frame_task None on ty j -> has_pose ty -> target_frame_is j q p -> wf_data (j_model j) d ->
  exists i, has_object (j_model j) ty on (Z.of_nat i) /\ forall M x, pose_is d ty i M x -> exact_range (l_eps L) M (q_mat q) ->
  exists l w, call L j d = Ok (v3_list l ++ v3_list w) /\ v3_norm2 w <= PI * PI /\
    (exists Q X, moves_with l w Q X /\ Q 0 = M /\ X 0 = x) /\
    (forall Q X, moves_with l w Q X -> Q 0 = M -> X 0 = x -> Q 1 = q_mat q /\ X 1 = p).
Proof. exact (frame_error_leads L on ty j d q p). Qed.
Print Assumptions C123_error_leads_to_the_target.
(** A motion with constant velocities is determined by its start (rotating with angular
    speed [a] about the axis [u], or not at all), so the previous statement fixes where
    the object is at time one. *)
Theorem C123_motion_is_unique l w Q X Q' X' : moves_with l w Q X -> moves_with l w Q' X' -> Q 0 = Q' 0 -> X 0 = X' 0 -> forall s, Q s = Q' s /\ X s = X' s.
Proof. exact (motion_unique l w Q X Q' X'). Qed.
Print Assumptions C123_motion_is_unique.
(** A frame without rotation at the origin, the target turned by a quarter about z at (1, 2, 3). *)
Example C123_case : let s := / sqrt 2 in let q := mkQ s 0 0 s in let j := frame_on None q (mkV 1 2 3) in let d := posed arm2 [0; 0; 0] (m3_list m3_id) in
  frame_task None "tip" OBody j /\ target_frame_is j q (mkV 1 2 3) /\ wf_data (j_model j) d /\ pose_is d OBody 2 m3_id v3_zero /\
  exact_range (1 / 100000) m3_id (q_mat q) /\ m3_id <> q_mat q.
Proof.
  cbv zeta. assert (S2 : / sqrt 2 * / sqrt 2 = 1 / 2) by (rewrite <- Rinv_mult, sqrt_sqrt by lra; lra).
  destruct (frame_on_ok None (mkQ (/ sqrt 2) 0 0 (/ sqrt 2)) (mkV 1 2 3) (or_introl eq_refl)) as (A1 & A2 & A3); [unfold q_norm2; cbn; lra|].
  split; [exact A1|]. split; [exact A2|]. split; [rewrite A3; now apply posed_data|]. split; [exact (posed_pose m3_id v3_zero rotation_id)|].
  split. { right. right. unfold trace, m3_mul, m3_tr, m3_id, q_mat. cbn. lra. }
  intros E. apply (f_equal m00) in E. unfold m3_id, q_mat in E. cbn in E. lra.
Qed.
