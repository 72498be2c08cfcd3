(** C125: the frame error is the only twist that leads to the target by less than a half
    turn, and it shrinks in proportion on the way. *)
From Verif Require Import Base Lin LinFacts Mjx Typing Component SpecComponent SpecJoint SpecHistory Rot Conf FrameJac Collide JaxComponents Witness.
From Verif Require Import SpecCollision SpecTree SpecShape SpecContact SpecSelf SpecConf SpecValue SpecTwist SpecOnly RotFacts ValueFacts4 ValueCases ValueThms2 TwistFacts TwistThms OnlyThms.
Open Scope R_scope.

(** Two twists that lead from one pose to the same pose, one turning by less and the other
    by at most a half turn, are equal. *)
Theorem C125_one_twist l w l' w' M x N y : is_rotation M -> arrives l w M x N y -> arrives l' w' M x N y -> v3_norm2 w <= PI * PI -> v3_norm2 w' < PI * PI -> l = l' /\ w = w'.
Proof. exact (only_twist l w l' w' M x N y). Qed.
Print Assumptions C125_one_twist.
(** Whatever twist leads to the target by less than a half turn: the frame task computes it. *)
Theorem C125_error_is_the_only_twist L on ty j d q p : 0 < l_eps L <= 1 / 2 -> frame_task None on ty j -> has_pose ty -> target_frame_is j q p -> wf_data (j_model j) d ->
  exists i, has_object (j_model j) ty on (Z.of_nat i) /\ forall M x, pose_is d ty i M x -> exact_range (l_eps L) M (q_mat q) ->
  forall l w, arrives l w M x (q_mat q) p -> v3_norm2 w < PI * PI -> call L j d = Ok (v3_list l ++ v3_list w).
Proof. exact (frame_error_only L on ty j d q p). Qed.
Print Assumptions C125_error_is_the_only_twist.
(** After the fraction [s] of the motion the error is [1 - s] times what it was. *)
Theorem C125_error_shrinks L on ty j d q p : 0 < l_eps L <= 1 / 2 -> frame_task None on ty j -> has_pose ty -> target_frame_is j q p -> wf_data (j_model j) d ->
  exists i, has_object (j_model j) ty on (Z.of_nat i) /\ forall M x, pose_is d ty i M x -> exact_range (l_eps L) M (q_mat q) ->
  exists l w, call L j d = Ok (v3_list l ++ v3_list w) /\
    forall Q X, moves_with l w Q X -> Q 0 = M -> X 0 = x -> forall s d', 0 < s <= 1 -> wf_data (j_model j) d' -> pose_is d' ty i (Q s) (X s) -> exact_range (l_eps L) (Q s) (q_mat q) ->
    call L j d' = Ok (v3_list (v3_scale (1 - s) l) ++ v3_list (v3_scale (1 - s) w)).
Proof. exact (frame_error_shrinks L on ty j d q p). Qed.
Print Assumptions C125_error_shrinks.

(** A quarter turn about z at the origin, and the same seen from half of the way. *)
Definition up : v3 := mkV 0 0 1.
Definition quarter : quat := mkQ (cos (PI / 2 / 2)) 0 0 (sin (PI / 2 / 2)).
Lemma quarter_turn : q_mat quarter = turn (PI / 2) up.
Proof. unfold turn, quarter, up. cbn [vx vy vz]. now rewrite !Rmult_0_r, Rmult_1_r. Qed.
Lemma up_unit : v3_norm2 up = 1.
Proof. unfold v3_norm2, v3_dot, up. cbn. ring. Qed.
Example C125_case : let j := frame_on None quarter v3_zero in let d := posed arm2 [0; 0; 0] (m3_list m3_id) in let d' := posed arm2 [0; 0; 0] (m3_list (turn (PI / 4) up)) in
  frame_task None "tip" OBody j /\ target_frame_is j quarter v3_zero /\ wf_data (j_model j) d /\ wf_data (j_model j) d' /\
  pose_is d OBody 2 m3_id v3_zero /\ exact_range (1 / 100000) m3_id (q_mat quarter) /\
  exact_range (1 / 100000) (turn (PI / 4) up) (q_mat quarter) /\ v3_norm2 (v3_scale (PI / 2) up) < PI * PI /\
  exists Q X, moves_with v3_zero (v3_scale (PI / 2) up) Q X /\ Q 0 = m3_id /\ X 0 = v3_zero /\ Q 1 = q_mat quarter /\ X 1 = v3_zero /\ pose_is d' OBody 2 (Q (1 / 2)) (X (1 / 2)).
Proof.
  cbv zeta. pose proof PI_RGT_0 as PP.
  destruct (frame_on_ok None quarter v3_zero (or_introl eq_refl)) as (A1 & A2 & A3); [unfold quarter, q_norm2; cbn [qw qx qy qz]; pose proof (half_sc (PI / 2)); lra|].
  split; [exact A1|]. split; [exact A2|]. split; [rewrite A3; now apply posed_data|]. split; [rewrite A3; now apply posed_data|]. split; [exact (posed_pose m3_id v3_zero rotation_id)|].
  assert (C4 : 7 / 10 <= cos (PI / 4) <= 8 / 10). { assert (0 < cos (PI / 4)) by (apply cos_gt_0; lra). assert (cos (PI / 4) * cos (PI / 4) = 1 / 2) by (rewrite cos_PI4; pose proof (sqrt_sqrt 2 ltac:(lra)); assert (0 < sqrt 2) by (apply sqrt_lt_R0; lra); replace (1 / sqrt 2 * (1 / sqrt 2)) with (1 / (sqrt 2 * sqrt 2)) by (field; lra); rewrite H0; reflexivity). nra. }
  rewrite quarter_turn, !turn_rodrigues by exact up_unit.
  split. { right. right. rewrite cos_PI2, sin_PI2. unfold trace, m3_mul, m3_tr, m3_id, rodrigues, up. cbn. lra. }
  split. { right. right. rewrite cos_PI2, sin_PI2, <- sin_cos_PI4. unfold trace, m3_mul, m3_tr, rodrigues, up. cbn. rewrite ?sin_cos_PI4. lra. }
  split. { unfold v3_norm2, v3_dot, v3_scale, up. cbn. nra. }
  destruct (twist_exists (PI / 2) up v3_zero m3_id v3_zero ltac:(lra) up_unit) as (Q & X & Hm & Q0 & X0).
  exists Q, X. pose proof (twist_unique (PI / 2) up v3_zero Q X ltac:(lra) up_unit Hm) as U.
  assert (X00 : forall s, X s = v3_zero) by (intros s; destruct (U s) as [_ ->]; rewrite X0, Q0; unfold v3_add, m3_app, travelled, v3_add, v3_scale, cross, v3_zero, m3_id; cbn; f_equal; ring).
  assert (Qs : forall s, Q s = turn (s * (PI / 2)) up) by (intros s; destruct (U s) as [-> _]; rewrite Q0; apply m3_mul_id_l).
  split; [exact Hm|]. split; [exact Q0|]. split; [exact X0|]. rewrite X00, Qs, Rmult_1_l. split; [now rewrite turn_rodrigues by exact up_unit|]. split; [reflexivity|].
  rewrite X00, Qs. replace (1 / 2 * (PI / 2)) with (PI / 4) by field. rewrite <- turn_rodrigues by exact up_unit. exact (posed_pose _ v3_zero (turn_rotation _ _ up_unit)).
Qed.
