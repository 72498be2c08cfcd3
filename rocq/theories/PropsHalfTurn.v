(** C33: the frame error at half turns. *)
From Verif Require Import Base Lin LinFacts Mjx Typing Component SpecComponent SpecJoint SpecHistory Rot Conf FrameJac Collide JaxComponents Witness.
From Verif Require Import SpecCollision SpecTree SpecShape SpecContact SpecSelf SpecConf SpecValue RotFacts ValueCases ValueThms2 HalfTurnFacts.
Open Scope R_scope.

(** The size of the frame error is the same after a rigid motion of the frame and of the
    target, also when the two differ by a half turn. *)
Theorem C33_size_is_invariant L on ty j j' d d' q p q' p' G g : 0 < l_eps L <= 1 / 2 -> frame_task None on ty j -> frame_task None on ty j' -> j_model j' = j_model j -> has_pose ty ->
  target_frame_is j q p -> target_frame_is j' q' p' -> wf_data (j_model j) d -> wf_data (j_model j) d' -> is_rotation G -> q_mat q' = move_rot G (q_mat q) -> p' = move_pos G g p ->
  exists i, has_object (j_model j) ty on (Z.of_nat i) /\ forall M x, pose_is d ty i M x -> pose_is d' ty i (move_rot G M) (move_pos G g x) ->
  exists v v', call L j d = Ok v /\ call L j' d' = Ok v' /\ dot v' v' = dot v v.
Proof. exact (frame_size_rigid L on ty j j' d d' q p q' p' G g). Qed.
Print Assumptions C33_size_is_invariant.
(** Two quaternions of one target rotation give the same error exactly if they are equal
    or frame and target do not differ by a half turn.  Otherwise the angular parts are
    opposite and have length pi. *)
Theorem C33_sign_matters_iff L on ty j j' d q q' p : 0 < l_eps L <= 1 / 2 -> frame_task None on ty j -> frame_task None on ty j' -> j_model j' = j_model j -> has_pose ty ->
  target_frame_is j q p -> target_frame_is j' q' p -> q_mat q' = q_mat q -> wf_data (j_model j) d ->
  exists i, has_object (j_model j) ty on (Z.of_nat i) /\ forall M x, pose_is d ty i M x ->
  (call L j' d = call L j d <-> q' = q \/ ~ half_turn M (q_mat q)) /\
  (half_turn M (q_mat q) -> q' <> q -> exists v v', call L j d = Ok v /\ call L j' d = Ok v' /\ skipn 3 v' = map Ropp (skipn 3 v) /\ dot (skipn 3 v) (skipn 3 v) = PI * PI).
Proof. exact (frame_sign_iff L on ty j j' d q q' p). Qed.
Print Assumptions C33_sign_matters_iff.
(** A frame without rotation and a target turned by pi about the x axis, moved away by
    three, written with both quaternions. *)
Example C33_half_turn_case : let j s := frame_on None (mkQ 0 s 0 0) (mkV 1 2 3) in let d := posed arm2 [0; 0; 0] (m3_list m3_id) in
  frame_task None "tip" OBody (j 1) /\ frame_task None "tip" OBody (j (-1)) /\ j_model (j (-1)) = j_model (j 1) /\
  target_frame_is (j 1) (mkQ 0 1 0 0) (mkV 1 2 3) /\ target_frame_is (j (-1)) (mkQ 0 (-1) 0 0) (mkV 1 2 3) /\
  q_mat (mkQ 0 (-1) 0 0) = q_mat (mkQ 0 1 0 0) /\ wf_data (j_model (j 1)) d /\ pose_is d OBody 2 m3_id v3_zero /\ half_turn m3_id (q_mat (mkQ 0 1 0 0)).
Proof.
  cbv zeta. destruct (frame_on_ok None (mkQ 0 1 0 0) (mkV 1 2 3) (or_introl eq_refl)) as (A1 & A2 & A3); [unfold q_norm2; cbn; ring|].
  destruct (frame_on_ok None (mkQ 0 (-1) 0 0) (mkV 1 2 3) (or_introl eq_refl)) as (B1 & B2 & B3); [unfold q_norm2; cbn; ring|].
  split; [exact A1|]. split; [exact B1|]. split; [congruence|]. split; [exact A2|]. split; [exact B2|]. split; [unfold q_mat; cbn; f_equal; ring|].
  split; [rewrite A3; now apply (posed_data)|]. split; [exact (posed_pose m3_id v3_zero rotation_id)|]. unfold half_turn, trace, m3_mul, m3_tr, m3_id, q_mat. cbn. ring.
Qed.
