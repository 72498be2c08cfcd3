(** When the Jacobian of an unrotated frame task is right. *)
From Verif Require Import Base Lin Mjx Typing Component SpecComponent SpecJoint SpecHistory SpecMotion SpecConf Rot Conf FrameJac JaxComponents Witness SpecTree SpecShape SpecValue SpecDeriv.
From Verif Require Import DerivThms2 LogThms.
Open Scope R_scope.

Lemma frame_right_iff L mk on ty j q v p : let m := j_model j in sound_jac (l_jacrev L) -> 0 < l_eps L -> frame_task mk on ty j -> has_pose ty -> target_frame_is j q_one p -> mask_within 6 mk ->
  List.length q = m_nq m -> List.length v = m_nv m -> normalised m q -> (forall y, List.length y = m_nq m -> wf_data m (update L m y)) ->
  exists i, has_object m ty on (Z.of_nat i) /\ forall x J0, (forall y, List.length y = m_nq m -> exists M x, pose_is (update L m y) ty i M x) ->
    pose_is (update L m q) ty i m3_id x -> get_frame_jacobian_world_aligned m (update L m q) (Z.of_nat i) ty = Ok J0 ->
    moves_with (data_after L m q v) ty i (linear_velocity J0 v) (angular_velocity J0 v) ->
    exists J, jacobian L j (update L m q) = Ok J /\ List.length J = List.length (axes 6 mk) /\
    forall k, (k < List.length (axes 6 mk))%nat ->
      (derivative_at_0 (fun t => nth k (value_after L j q v t) 0) (nth k (mv J v) 0) <-> nth (nth k (axes 6 mk) 0%nat) (cross3 (v3_list x) (angular_velocity J0 v) ++ [0; 0; 0]) 0 = 0).
Proof.
  cbv zeta. intros A B C D E F G H I K. destruct (frame_jacobian_defect L mk on ty j q v p A B C D E F G H I K) as (i & Hi & P). exists i. split; [exact Hi|].
  intros x J0 X1 X2 X3 X4. destruct (P x J0 X1 X2 X3 X4) as (J & EJ & LJ & Q). exists J. split; [exact EJ|]. split; [exact LJ|]. intros k Hk. destruct (Q k Hk) as (l & Dl & El). rewrite El. split.
  - intros T. pose proof (uniqueness_limite _ _ _ _ T Dl). lra.
  - intros Z. rewrite Z, Rplus_0_r. exact Dl.
Qed.
