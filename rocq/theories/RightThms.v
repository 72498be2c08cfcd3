(** When the rate matrix and the automatic Jacobians are right. *)
From Coq Require Import Lia.
From Verif Require Import Base Lin Mjx Typing Component SpecJoint SpecMotion SpecConf Rot Conf JaxComponents SpecDeriv SpecRight LinFacts QPThms3 MotionFacts MotionFacts2 ConfFacts ConfFacts2 ConfFacts3 ConfFacts4 DerivFacts DerivThms DerivThms2.
Open Scope R_scope.

Lemma rate_right_iff m q v E : wf_joints m -> List.length q = m_nq m -> List.length v = m_nv m -> normalised m q -> jac_dq2v m q = Ok E ->
  ((forall i, (i < m_nq m)%nat -> derivative_at_0 (entry_after m q v i) (nth i (mv E v) 0)) <-> (forall j a b, quat_joint m j a b -> vec_in v b = v3_zero)).
Proof.
  intros Hw Hq Hv Hn HE. destruct (configuration_rate m q v E Hw Hq Hv Hn HE) as (Rs & Rf & Rq). destruct (rate_spec m q v E Hw Hq Hv HE) as (_ & _ & _ & Vq). split.
  - intros H j a b Hj. assert (Z : forall k, (k < 4)%nat -> nth (a + k) (mv E v) 0 = 0).
    { intros k Hk. assert (B : (a + k < m_nq m)%nat).
      { destruct Hj as [(Hj & -> & _)|(Hj & -> & _)]; pose proof (qpos_end m Hw j _ Hj) as B; cbn [jnt_nq] in B; lia. }
      pose proof (H _ B) as D1. pose proof (Rq j a b k Hj Hk) as D2. pose proof (uniqueness_limite _ _ _ _ D1 D2). lra. }
    assert (U : q_norm2 (quat_in q a) = 1). { apply (Hn j a). destruct Hj as [(Hj & -> & _)|(Hj & -> & _)]; [left|right]; (split; [exact Hj|reflexivity]). }
    assert (P : q_mul (quat_in q a) (q_pure (vec_in v b)) = mkQ 0 0 0 0).
    { rewrite <- (Vq j a b Hj). unfold quat_in. f_equal; [replace a with (a + 0)%nat by lia|..]; apply Z; lia. }
    assert (N : q_norm2 (q_mul (quat_in q a) (q_pure (vec_in v b))) = 0) by (rewrite P; unfold q_norm2; cbn; ring). rewrite q_norm2_mul, U, Rmult_1_l in N.
    destruct (vec_in v b) as [x y z]. unfold q_norm2, q_pure in N. cbn in N. unfold v3_zero. f_equal; nra.
  - intros H. apply (rates m q v v E); auto. split; [reflexivity|]. split; [reflexivity|]. split; [reflexivity|]. intros j a b Hj. rewrite (H j a b Hj). unfold v3_scale, v3_zero. cbn. f_equal; ring.
Qed.

Lemma automatic_right_iff L j k q v w : let m := j_model j in sound_jac (l_jacrev L) -> automatic j -> kinematic L j -> wf_joints m -> smooth L j k q ->
  List.length q = m_nq m -> normalised m q -> d_qpos (update L m q) = q -> List.length v = m_nv m -> turning_part m v w ->
  exists J, jacobian L j (update L m q) = Ok J /\ is_mat k (m_nv m) J /\
  forall i, (i < k)%nat -> (derivative_at_0 (fun t => nth i (value_after L j q v t) 0) (nth i (mv J v) 0) <-> derivative_at_0 (fun t => nth i (value_after L j q w t) 0) 0).
Proof.
  cbv zeta. intros Hs Ha Hk Hw Hsm Hq Hn Hd Hv (Lw & [Os Of] & Tq). set (m := j_model j) in *.
  destruct (turning_twice L j k q w) as (J & E & M & D); auto; [fold m; congruence|split; assumption|].
  destruct (automatic_along_motion L j k q (vsub v (vscale (1 / 2) w)) v) as (J' & E' & _ & D'); auto.
  - fold m. rewrite vsub_length; rewrite vscale_length; congruence.
  - assert (S : forall i, nth i (vsub v (vscale (1 / 2) w)) 0 = nth i v 0 - 1 / 2 * nth i w 0) by (intros i; rewrite nth_vsub, nth_vscale by (now rewrite vscale_length); reflexivity).
    fold m. split; [rewrite vsub_length; rewrite vscale_length; congruence|]. split; [|split].
    + intros x Hx. rewrite S, (Os x Hx). ring.
    + intros x Hx. pose proof (Of x Hx) as K. unfold vec_in in *. rewrite !S. unfold v3_zero in *. injection K as K1 K2 K3. rewrite K1, K2, K3. f_equal; ring.
    + intros x a b Hx. pose proof (Tq x a b Hx) as K. unfold vec_in in *. unfold v3_scale. cbn [vx vy vz]. rewrite !S. injection K as K1 K2 K3. rewrite K1, K2, K3. f_equal; field.
  - fold m in E, E'. rewrite E in E'. injection E' as <-. exists J. split; [exact E|]. split; [exact M|]. intros i Hi.
    destruct (D i Hi) as (l & Dl & El). specialize (D' i Hi). cbv beta in D'. rewrite mv_vsub, nth_vsub, mv_vscale, nth_vscale, El in D' by (rewrite ?mv_length, ?vscale_length, ?mv_length; auto; congruence).
    split; intros K.
    + pose proof (uniqueness_limite _ _ _ _ K D') as U. assert (Z : l = 0) by lra. rewrite Z in Dl. exact Dl.
    + pose proof (uniqueness_limite _ _ _ _ K Dl) as U. subst l. rewrite Rmult_0_r, Rmult_0_r, Rminus_0_r in D'. exact D'.
Qed.

(** Integrating the difference of two orientations from the second one. *)
Lemma square_not_one r : 0 < v3_norm2 (q_im r) -> qw r <> 0 -> ~ same_rotation (q_mul r r) q_one.
Proof.
  destruct r as [w x y z]. unfold v3_norm2, v3_dot, q_im. cbn. intros Hn Hw H.
  assert (Z : x = 0 /\ y = 0 /\ z = 0) by (unfold same_rotation, q_mul, q_one, q_neg in H; cbn in H; destruct H as [H|H]; injection H as _ Hx Hy Hz; repeat split; apply (Rmult_eq_reg_l (2 * w)); nra).
  destruct Z as (-> & -> & ->). lra.
Qed.
Lemma log_other_way eps a b : 0 < eps <= 1 / 2 -> q_norm2 a = 1 -> q_norm2 b = 1 -> ordinary eps (q_mul (q_conj a) b) \/ same_rotation a b ->
  (same_rotation (quat_integrate b (so3_log eps (q_mul (q_conj a) b)) 1) a <-> same_rotation a b).
Proof.
  intros He Ha Hb Hr. set (r := q_mul (q_conj a) b) in *.
  assert (Nr : q_norm2 r = 1) by (unfold r; rewrite q_norm2_mul, q_norm2_conj, Ha, Hb; ring).
  assert (SY : same_rotation a b -> same_rotation b a) by (intros [->| ->]; [now left|right; destruct b; unfold q_neg; cbn; f_equal; ring]).
  assert (EQ : same_rotation a b -> same_rotation (quat_integrate b (so3_log eps r) 1) a).
  { intros S. rewrite quat_integrate_step. assert (Z : so3_log eps r = v3_zero) by (apply so3_log_zero; [exact He|exact Nr|]; now apply relative_rotation).
    rewrite Z, step_zero, q_mul_one_r, q_normalize_unit by exact Hb. now apply SY. }
  split; [|exact EQ]. destruct Hr as [Hr|Hr]; [|now intros _]. intros S. exfalso. rewrite quat_integrate_step in S.
  assert (BR : b = q_mul a r) by (unfold r; now rewrite <- q_mul_assoc, q_mul_conj_r, q_mul_one_l).
  assert (N1 : q_norm2 (q_mul b r) = 1) by (rewrite q_norm2_mul, Hb, Nr; ring).
  assert (T : same_rotation (q_mul b r) a).
  { destruct (step_of_log eps r ltac:(lra) Nr Hr) as [E|E]; rewrite E in S.
    - now rewrite q_normalize_unit in S by exact N1.
    - rewrite q_mul_neg_r, q_normalize_unit in S by (rewrite <- N1; unfold q_norm2, q_neg; cbn; ring).
      destruct S as [S|S]; [right|left].
      + rewrite <- S. destruct (q_mul b r); unfold q_neg; cbn; f_equal; ring.
      + destruct (q_mul b r), a; unfold q_neg in *; cbn in *; injection S as; f_equal; lra. }
  apply (square_not_one r); [destruct Hr; lra|destruct Hr as [_ Hr]; intros Z; rewrite Z, Rabs_R0 in Hr; lra|].
  assert (K : q_mul (q_conj a) (q_mul b r) = q_mul r r) by (rewrite <- q_mul_assoc; reflexivity). rewrite <- K.
  destruct T as [->| ->]; [left; now apply q_mul_conj_l|right; rewrite q_mul_neg_r; now rewrite q_mul_conj_l].
Qed.
Lemma joint_difference_right_iff eps m q1 q2 d : 0 < eps <= 1 / 2 -> wf_joints m -> List.length q1 = m_nq m -> List.length q2 = m_nq m ->
  normalised m q1 -> normalised m q2 -> joint_difference eps m q1 q2 = Ok d ->
  exists q', integrate m q2 d 1 = Ok q' /\ forall j a, quat_address m j a ->
    ordinary eps (q_mul (q_conj (quat_in q1 a)) (quat_in q2 a)) \/ same_rotation (quat_in q1 a) (quat_in q2 a) ->
    (same_rotation (quat_in q' a) (quat_in q1 a) <-> same_rotation (quat_in q1 a) (quat_in q2 a)).
Proof.
  intros He Hw L1 L2 N1 N2 Hd. assert (Hne : m_jnt_type m <> []) by (intros E; unfold joint_difference in Hd; rewrite E in Hd; discriminate).
  destruct (difference_spec eps m q1 q2 Hw Hne L1 L2) as (d' & E & Ld & P). rewrite Hd in E. injection E as <-.
  destruct (integrate_spec m Hw q2 d 1 L2 Ld) as (q' & Hi & _). exists q'. split; [exact Hi|]. intros j a Ha Hr.
  pose proof (N1 j a Ha) as U1. pose proof (N2 j a Ha) as U2. rewrite norm2_in in U1, U2.
  assert (X : exists b, quat_joint m j a b /\ vec_in d b = so3_log eps (q_mul (q_conj (quat_in q1 a)) (quat_in q2 a))).
  { destruct Ha as [[Hj ->]|[Hj ->]].
    - exists (dof_of m j + 3)%nat. split; [left; auto|]. specialize (P j JFree Hj). cbn [jnt_nv diff_piece] in P. unfold vec_in. rewrite <- !Nat.add_assoc. rewrite !(slice_entries _ _ _ _ P) by lia.
      unfold se3_log. cbn [se3_mul se3_inv s_rot]. match goal with |- context [v_inv ?e ?o ?p] => generalize (v_inv e o p) end. intros [x y z]. unfold v3_list. cbn [app nth Nat.add].
      match goal with |- _ = ?s => destruct s end. reflexivity.
    - exists (dof_of m j). split; [right; auto|]. specialize (P j JBall Hj). cbn [jnt_nv diff_piece] in P. unfold vec_in. rewrite <- (Nat.add_0_r (dof_of m j)) at 1. rewrite !(slice_entries _ _ _ _ P) by lia.
      match goal with |- _ = ?s => destruct s end. reflexivity. }
  destruct X as (b & Hb & X). rewrite (integrate_quat m q2 d 1 q' Hw L2 Ld Hi j a b Hb), X. apply log_other_way; auto.
Qed.
