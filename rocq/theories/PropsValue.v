(** C25, C26, C28, C29, C33, C54: what compiled components read and the values they return. *)
From Verif Require Import Base Lin Mjx Typing Component SpecComponent SpecJoint SpecHistory Rot Conf FrameJac Collide JaxComponents Witness.
From Verif Require Import SpecCollision SpecTree SpecShape SpecContact SpecSelf SpecConf SpecValue ConfCases ValueFacts2 ValueFacts3 ValueFacts4 ValueCases ValueThms ValueThms2.
Open Scope R_scope.

(** ** C28 *)
Theorem C28_position_error L mk on ty j t d : position_task mk on ty j -> has_pose ty -> mask_within 3 mk -> target_is j t -> wf_data (j_model j) d ->
  exists i e, has_object (j_model j) ty on (Z.of_nat i) /\ List.length t = List.length (axes 3 mk) /\
    call L j d = Ok e /\ e = vsub (coords (axes 3 mk) (position d ty i)) t /\
    (e = vzero (List.length e) <-> forall k, (k < List.length (axes 3 mk))%nat -> nth (nth k (axes 3 mk) 0%nat) (position d ty i) 0 = nth k t 0) /\
    (forall d', wf_data (j_model j) d' -> same_selected 3 mk (position d ty i) (position d' ty i) -> call L j d' = Ok e).
Proof. exact (position_error L mk on ty j t d). Qed.
Print Assumptions C28_position_error.
Theorem C28_com_error L mk j t d : com_task mk j -> wf_mask mk -> target_is j t -> wf_data (j_model j) d ->
  exists e, List.length t = List.length (axes 3 mk) /\
    call L j d = Ok e /\ e = vsub (coords (axes 3 mk) (robot_com d)) t /\
    (e = vzero (List.length e) <-> forall k, (k < List.length (axes 3 mk))%nat -> nth (nth k (axes 3 mk) 0%nat) (robot_com d) 0 = nth k t 0) /\
    (forall d', wf_data (j_model j) d' -> same_selected 3 mk (robot_com d) (robot_com d') -> call L j d' = Ok e).
Proof. exact (com_error L mk j t d). Qed.
Print Assumptions C28_com_error.
Theorem C28_target_setters c0 os mk t : Forall api_op os ->
  ((exists name cost gain gf lm, new_com_task name cost gain gf lm mk = Ok c0) ->
   let c := history os c0 in
   (last_dim t = Ok (List.length (axes 3 mk)) -> fst (update_target_com t c) = Ok tt /\ held_target (snd (update_target_com t c)) t) /\
   (ndim t <> 0%nat -> last_dim t <> Ok (List.length (axes 3 mk)) -> update_target_com t c = (Err ValueError, c))) /\
  ((exists name cost gain on ty gf lm, new_position_task name cost gain on ty gf lm mk = Ok c0) ->
   let c := history os c0 in
   (last_dim t = Ok (List.length (axes 3 mk)) -> fst (update_target_pos t c) = Ok tt /\ held_target (snd (update_target_pos t c)) t) /\
   (ndim t <> 0%nat -> last_dim t <> Ok (List.length (axes 3 mk)) -> update_target_pos t c = (Err ValueError, c))).
Proof. exact (target_setters c0 os mk t). Qed.
Print Assumptions C28_target_setters.
Example C28_case : position_task (Some (mvec [1; 0; 1]%Z)) "tip" OBody (pos_on (Some [1; 0; 1]%Z) [1; 3]) /\ target_is (pos_on (Some [1; 0; 1]%Z) [1; 3]) [1; 3] /\
  mask_within 3 (Some (mvec [1; 0; 1]%Z)) /\ axes 3 (Some (mvec [1; 0; 1]%Z)) = [0; 2]%nat /\ j_model (pos_on (Some [1; 0; 1]%Z) [1; 3]) = arm2 /\ wf_data arm2 (straight arm2 [0; 0]).
Proof.
  destruct pos_masked_ok as (A & B & C). split; [exact A|]. split; [exact B|]. split; [cbn; lia|]. split; [reflexivity|]. split; [exact C|]. now apply straight_data.
Qed.
Example C28_com_case : com_task (Some (mvec [1; 1; 0]%Z)) (com_on [1; 2]) /\ wf_mask (Some (mvec [1; 1; 0]%Z)) /\ target_is (com_on [1; 2]) [1; 2] /\ j_model (com_on [1; 2]) = arm2 /\ wf_data arm2 (straight arm2 [0; 0]).
Proof. destruct com_on_ok as (A & B & C & D). repeat (split; [assumption|]). now apply straight_data. Qed.

(** ** C29 *)
Theorem C29_position_barrier L mk on ty lts j lo hi d : position_barrier mk on ty lts j -> has_pose ty -> mask_within 3 mk -> p_limits_are lts j lo hi -> wf_data (j_model j) d ->
  exists i h, has_object (j_model j) ty on (Z.of_nat i) /\ call L j d = Ok h /\ (lts = "min" \/ lts = "max" \/ lts = "both")%string /\
    j_dim j = Z.of_nat (List.length h) /\ List.length h = barrier_size lts (List.length (axes 3 mk)) /\
    (vnonneg h <-> inside lts lo hi (coords (axes 3 mk) (position d ty i))).
Proof. exact (position_barrier_semantics L mk on ty lts j lo hi d). Qed.
Print Assumptions C29_position_barrier.
Example C29_case : let j := wall_on "max" None (Some (tscalar 2)) (Some (mvec [1; 0; 1]%Z)) in
  position_barrier (Some (mvec [1; 0; 1]%Z)) "tip" OBody "max" j /\ p_limits_are "max" j [] [2; 2] /\ j_model j = arm2 /\ wf_data arm2 (straight arm2 [0; 0]).
Proof. cbv zeta. destruct wall_ok as (A & B & C). repeat (split; [assumption|]). now apply straight_data. Qed.

(** ** C25: masks no longer than the quantity they select from are harmless; a longer
    mask is accepted and reads an entry that was not selected. *)
Theorem C25_short_masks_partial on ty j mk : mask_within 3 mk -> has_pose ty -> position_task mk on ty j \/ (exists lt, position_barrier mk on ty lt j) ->
  exists i, has_object (j_model j) ty on (Z.of_nat i) /\ forall L d d', wf_data (j_model j) d -> wf_data (j_model j) d' ->
  same_selected 3 mk (position d ty i) (position d' ty i) -> call L j d = call L j d'.
Proof. exact (short_mask_reads on ty j mk). Qed.
Print Assumptions C25_short_masks_partial.
Theorem C25_short_frame_masks_partial on ty j mk q p : frame_task mk on ty j -> mask_within 6 mk -> has_pose ty -> target_frame_is j q p ->
  exists i, has_object (j_model j) ty on (Z.of_nat i) /\ forall L j0 d d' v v' M x M' x', frame_task None on ty j0 -> j_model j0 = j_model j -> target_frame_is j0 q p ->
    wf_data (j_model j) d -> wf_data (j_model j) d' -> pose_is d ty i M x -> pose_is d' ty i M' x' -> call L j0 d = Ok v -> call L j0 d' = Ok v' ->
    same_selected 6 mk v v' -> call L j d = call L j d'.
Proof. exact (short_mask_frame on ty j mk q p). Qed.
Print Assumptions C25_short_frame_masks_partial.
Theorem C25_com_masks_checked name cost gain gf lm k : wf_mask (Some k) -> List.length (mk_data k) <> 3%nat -> forall c, new_com_task name cost gain gf lm (Some k) <> Ok c.
Proof. exact (com_mask_rejected name cost gain gf lm k). Qed.
Print Assumptions C25_com_masks_checked.
Theorem C25_long_position_mask_refuted L : exists mk j d d', position_task mk "tip" OBody j /\ wf_mask mk /\ has_object (j_model j) OBody "tip" 2 /\ wf_data (j_model j) d /\ wf_data (j_model j) d' /\
  same_selected 3 mk (position d OBody 2) (position d' OBody 2) /\ call L j d <> call L j d'.
Proof. exact (long_mask_position L). Qed.
Print Assumptions C25_long_position_mask_refuted.
Theorem C25_long_barrier_mask_refuted L : exists mk j d d', position_barrier mk "tip" OBody "min" j /\ wf_mask mk /\ has_object (j_model j) OBody "tip" 2 /\ wf_data (j_model j) d /\ wf_data (j_model j) d' /\
  same_selected 3 mk (position d OBody 2) (position d' OBody 2) /\ call L j d <> call L j d'.
Proof. exact (long_mask_barrier L). Qed.
Print Assumptions C25_long_barrier_mask_refuted.
Theorem C25_long_frame_mask_refuted L : 0 < l_eps L <= 1 / 2 -> exists mk j j0 d d' v v', frame_task mk "tip" OBody j /\ frame_task None "tip" OBody j0 /\ wf_mask mk /\ j_model j0 = j_model j /\
  target_frame_is j q_one v3_zero /\ target_frame_is j0 q_one v3_zero /\ wf_data (j_model j) d /\ wf_data (j_model j) d' /\ call L j0 d = Ok v /\ call L j0 d' = Ok v' /\
  same_selected 6 mk v v' /\ call L j d <> call L j d'.
Proof. exact (long_mask_frame L). Qed.
Print Assumptions C25_long_frame_mask_refuted.

(** ** C26: the compiled component reads only the pose of the named object *)
Theorem C26_reads_named_object on ty j : object_component on ty j -> has_pose ty -> exists i, has_object (j_model j) ty on (Z.of_nat i) /\ (i < count (j_model j) ty)%nat /\
  forall L d d', wf_data (j_model j) d -> wf_data (j_model j) d' -> position d ty i = position d' ty i -> orientation d ty i = orientation d' ty i -> call L j d = call L j d'.
Proof. exact (object_reads_pose on ty j). Qed.
Print Assumptions C26_reads_named_object.
Example C26_reads_case : object_component "tip" OBody (pos_on None [1; 2; 3]) /\ has_object (j_model (pos_on None [1; 2; 3])) OBody "tip" 2 /\ wf_data (j_model (pos_on None [1; 2; 3])) (straight arm2 [0; 0]).
Proof. destruct pos_on_ok as (A & B & ->). split; [left; eexists; exact A|]. split; [right; now left|]. now apply straight_data. Qed.

(** ** C33 *)
Theorem C33_frame_error L on ty j d q p : 0 < l_eps L <= 1 / 2 -> frame_task None on ty j -> has_pose ty -> target_frame_is j q p -> wf_data (j_model j) d ->
  exists i, has_object (j_model j) ty on (Z.of_nat i) /\ forall M x, pose_is d ty i M x ->
  exists v, call L j d = Ok v /\ List.length v = 6%nat /\ (v = vzero 6 <-> M = q_mat q /\ x = p) /\
    forall mk j', frame_task mk on ty j' -> j_model j' = j_model j -> target_frame_is j' q p -> mask_within 6 mk ->
      call L j' d = Ok (coords (axes 6 mk) v).
Proof. exact (frame_error_facts L on ty j d q p). Qed.
Print Assumptions C33_frame_error.
(** Invariance, for frames that do not differ by exactly a half turn. *)
Theorem C33_rigid_motion_partial L mk on ty j j' d d' q p q' p' G g : frame_task mk on ty j -> frame_task mk on ty j' -> j_model j' = j_model j -> has_pose ty -> mask_within 6 mk ->
  target_frame_is j q p -> target_frame_is j' q' p' -> wf_data (j_model j) d -> wf_data (j_model j) d' -> is_rotation G -> q_mat q' = move_rot G (q_mat q) -> p' = move_pos G g p ->
  exists i, has_object (j_model j) ty on (Z.of_nat i) /\ forall M x, pose_is d ty i M x -> pose_is d' ty i (move_rot G M) (move_pos G g x) -> ~ half_turn M (q_mat q) ->
  call L j' d' = call L j d.
Proof. exact (frame_error_rigid L mk on ty j j' d d' q p q' p' G g). Qed.
Print Assumptions C33_rigid_motion_partial.
(** At a half turn the value depends on which of the two quaternions of the same target rotation was given. *)
Theorem C33_half_turn_refuted L : 0 < l_eps L <= 1 / 2 -> exists j j' d q q', frame_task None "tip" OBody j /\ frame_task None "tip" OBody j' /\ j_model j' = j_model j /\
  target_frame_is j q v3_zero /\ target_frame_is j' q' v3_zero /\ q_mat q' = q_mat q /\ has_object (j_model j) OBody "tip" 2 /\ wf_data (j_model j) d /\ pose_is d OBody 2 m3_id v3_zero /\
  half_turn m3_id (q_mat q) /\ call L j' d <> call L j d.
Proof. exact (half_turn_refuted L). Qed.
Print Assumptions C33_half_turn_refuted.
Example C33_case : frame_task None "tip" OBody (frame_on None q_one v3_zero) /\ target_frame_is (frame_on None q_one v3_zero) q_one v3_zero /\
  pose_is (posed arm2 [0; 0; 0] (m3_list quarter_z)) OBody 2 quarter_z v3_zero /\ ~ half_turn quarter_z (q_mat q_one) /\ quarter_z <> q_mat q_one.
Proof.
  destruct (frame_on_ok None q_one v3_zero (or_introl eq_refl)) as (A & B & _); [unfold q_norm2, q_one; cbn; ring|]. split; [exact A|]. split; [exact B|]. split; [exact (posed_pose _ v3_zero quarter_rotation)|].
  split; [unfold half_turn, trace, m3_mul, m3_tr, quarter_z, q_mat, q_one; cbn; lra|]. unfold quarter_z, q_mat, q_one. cbn. intros H. injection H as H. lra.
Qed.

(** ** C54: the rows *)
Theorem C54_equality_rows L j d : equality_constraint j -> wf_data (j_model j) d ->
  let rows := flagged (d_efc_pos d) (d_efc_is_equality d) in
  Forall eq_supported (m_eq_type (j_model j)) /\ j_dim j = Z.of_nat (eq_total (j_model j)) /\
  (List.length rows = eq_total (j_model j) -> call L j d = Ok rows /\ jacobian L j d = Ok (flagged (d_efc_J d) (d_efc_is_equality d))) /\
  (m_eq_type (j_model j) = [] -> j_dim j = 0%Z /\ call L j d = Ok [] /\ jacobian L j d = Ok []).
Proof. exact (equality_rows L j d). Qed.
Print Assumptions C54_equality_rows.
Example C54_rows_case : equality_constraint (eq_on linkage) /\ j_model (eq_on linkage) = linkage /\ wf_data linkage linkage_data /\
  flagged (d_efc_pos linkage_data) (d_efc_is_equality linkage_data) = [1; 2; 3] /\ eq_total linkage = 3%nat /\
  equality_constraint (eq_on arm2) /\ m_eq_type arm2 = [].
Proof.
  destruct (eq_on_ok linkage (or_introl eq_refl)) as [A B]. destruct (eq_on_ok arm2 (or_intror eq_refl)) as [C _]. split; [exact A|]. split; [exact B|]. split; [exact linkage_wf|]. repeat (split; [reflexivity|]). split; [exact C|reflexivity].
Qed.
