(** Integration and difference on quaternion joints. *)
From Verif Require Import Base Lin LinFacts Mjx SpecJoint JointFacts Rot Conf IntegrateFacts SpecMotion MotionFacts MotionFacts2 SpecConf ConfFacts.
Open Scope R_scope.

Lemma integrate_quat m q v dt q' : wf_joints m -> List.length q = m_nq m -> List.length v = m_nv m -> integrate m q v dt = Ok q' ->
  forall j a b, quat_joint m j a b -> quat_in q' a = quat_integrate (quat_in q a) (vec_in v b) dt.
Proof.
  intros Hw Hq Hv Hi. pose proof Hw as (_ & _ & _ & Hnq & Hnv & _).
  destruct (integrate_segments (m_jnt_type m) q v dt) as (q2 & Hi2 & Lq & Hj); [congruence|congruence|].
  rewrite integrate_sized in Hi by (rewrite ?Hq, ?Hv, <- ?Hnq, <- ?Hnv; apply Nat.le_refl). rewrite Hi2 in Hi. injection Hi as ->.
  intros j a b [(H & -> & ->)|(H & -> & ->)]; specialize (Hj j _ H); rewrite <- (qpos_pos m Hw _ _ H), <- (dof_pos m Hw _ _ H) in Hj;
    pose proof (qpos_end m Hw j _ H) as E1; pose proof (dof_end m Hw j _ H) as E2; cbn [jnt_nq jnt_nv] in *;
    unfold integrate_joint in Hj; rewrite !vec_at_nth, quat_at_nth in Hj by (rewrite skipn_length; lia); cbn [bind] in Hj; injection Hj as Hj;
    rewrite !nth_skipn in Hj; cbn [Nat.add] in Hj.
  - unfold quat_in, vec_in. rewrite <- !Nat.add_assoc. cbn [Nat.add].
    rewrite !(slice_entries (qpos_of m j) 7 q' _ (eq_sym Hj)) by lia. cbn [app v3_list nth]. unfold q_list. cbn [nth]. now rewrite quat_eta.
  - unfold quat_in, vec_in. rewrite !Nat.add_0_r in Hj. rewrite <- (Nat.add_0_r (qpos_of m j)) at 1.
    rewrite !(slice_entries (qpos_of m j) 4 q' _ (eq_sym Hj)) by lia. unfold q_list. cbn [nth]. now rewrite quat_eta.
Qed.

(** Integrating a quaternion by the logarithm of the relative rotation gives the other one. *)
Lemma q_mul_neg_r a b : q_mul a (q_neg b) = q_neg (q_mul a b).
Proof. unfold q_mul, q_neg; cbn. f_equal; ring. Qed.
Lemma q_neg_invol a : q_neg (q_neg a) = a.
Proof. destruct a as [a1 a2 a3 a4]. unfold q_neg; cbn. f_equal; ring. Qed.
Lemma safe_div_pos x n : n <> 0 -> safe_div x n = x / n.
Proof. intros H. unfold safe_div. destruct (Req_EM_T n 0); [contradiction|]. now rewrite Rplus_0_r. Qed.

Definition step_quat (v : v3) (dt : R) : quat :=
  let n := sqrt (v3_norm2 v) in let a := dt * n in
  mkQ (cos (a * (1 / 2))) (safe_div (vx v) n * sin (a * (1 / 2))) (safe_div (vy v) n * sin (a * (1 / 2))) (safe_div (vz v) n * sin (a * (1 / 2))).
Lemma quat_integrate_step q v dt : quat_integrate q v dt = q_normalize (q_mul q (step_quat v dt)).
Proof. reflexivity. Qed.

(** Away from the Taylor switches the exponential inverts the logarithm up to sign. *)
Lemma step_of_log eps r : 0 < eps -> q_norm2 r = 1 -> ordinary eps r -> same_rotation (step_quat (so3_log eps r) 1) r.
Proof.
  intros He Hr (Hn & Hw). unfold same_rotation.
  set (n2 := v3_norm2 (q_im r)) in *. set (n := sqrt n2).
  assert (Pn : 0 < n) by (apply sqrt_lt_R0; lra).
  assert (Nn : n * n = n2) by (apply sqrt_sqrt; lra).
  assert (Pw : 0 < Rabs (qw r)) by lra.
  assert (Ww : Rabs (qw r) * Rabs (qw r) = 1 - n2).
  { rewrite <- Rabs_mult, Rabs_right by (pose proof (Rle_0_sqr (qw r)); unfold Rsqr in *; lra). unfold q_norm2 in Hr. unfold n2, v3_norm2, v3_dot, q_im; cbn. lra. }
  set (w := Rabs (qw r)) in *. set (th := atan (n / w)).
  assert (Px : 0 < n / w) by (apply Rdiv_lt_0_compat; lra).
  assert (Pth : 0 < th) by (rewrite <- atan_0; now apply atan_increasing).
  assert (S1 : sqrt (1 + (n / w)²) = / w).
  { replace (1 + (n / w)²) with ((/ w)²); [apply sqrt_Rsqr; left; now apply Rinv_0_lt_compat|].
    unfold Rsqr. replace (n / w * (n / w)) with ((n * n) / (w * w)) by (field; lra). rewrite Nn, Ww. rewrite <- Rinv_mult, Ww. field. rewrite <- Ww. pose proof (Rmult_lt_0_compat _ _ Pw Pw). lra. }
  assert (C : cos th = w). { unfold th. rewrite cos_atan, S1. field; lra. }
  assert (Sn : sin th = n). { unfold th. rewrite sin_atan, S1. field; lra. }
  assert (F : so3_factor eps r = (if Rlt_dec (qw r) 0 then -1 else 1) * (2 * th / n)).
  { unfold so3_factor. fold n2. destruct (Rlt_dec n2 eps); [lra|]. fold n w. destruct (Rlt_dec w eps); [lra|].
    destruct (Rlt_dec (qw r) 0); [|unfold th; field; lra]. unfold th. replace (- n / w) with (- (n / w)) by (field; lra). rewrite atan_opp. field. lra. }
  assert (K : 0 < 2 * th / n) by (apply Rdiv_lt_0_compat; lra).
  set (sg := if Rlt_dec (qw r) 0 then -1 else 1) in *.
  assert (SG : sg * sg = 1) by (unfold sg; destruct (Rlt_dec (qw r) 0); lra).
  assert (NL : sqrt (v3_norm2 (so3_log eps r)) = 2 * th).
  { unfold so3_log. replace (v3_norm2 (v3_scale (so3_factor eps r) (q_im r))) with ((2 * th)²); [apply sqrt_Rsqr; lra|].
    replace (v3_norm2 (v3_scale (so3_factor eps r) (q_im r))) with (so3_factor eps r * so3_factor eps r * n2) by (unfold n2, v3_norm2, v3_dot, v3_scale; cbn; ring).
    rewrite F, <- Nn. unfold Rsqr. replace (sg * (2 * th / n) * (sg * (2 * th / n)) * (n * n)) with (sg * sg * (2 * th * (2 * th))) by (field; lra). rewrite SG. ring. }
  assert (E : forall x, safe_div (so3_factor eps r * x) (2 * th) * sin th = sg * x).
  { intros x. rewrite safe_div_pos by lra. rewrite F, Sn. field. lra. }
  assert (ST : step_quat (so3_log eps r) 1 = mkQ w (sg * qx r) (sg * qy r) (sg * qz r)).
  { unfold step_quat. cbv zeta. rewrite NL. replace (1 * (2 * th) * (1 / 2)) with th by field. rewrite C. unfold so3_log, v3_scale, q_im. cbn [vx vy vz]. now rewrite !E. }
  rewrite ST. unfold sg, w. destruct (Rlt_dec (qw r) 0) as [Q|Q].
  - right. rewrite Rabs_left by lra. unfold q_neg. f_equal; ring.
  - left. rewrite Rabs_right by lra. destruct r; cbn. f_equal; ring.
Qed.
Lemma step_zero : step_quat v3_zero 1 = q_one.
Proof.
  unfold step_quat, v3_norm2, v3_dot, v3_zero. cbn [vx vy vz]. replace (0 * 0 + 0 * 0 + 0 * 0) with 0 by ring. cbv zeta. rewrite sqrt_0, Rmult_0_r, Rmult_0_l, sin_0, cos_0, !Rmult_0_r. reflexivity.
Qed.
Lemma integrate_log eps a b : 0 < eps <= 1 / 2 -> q_norm2 a = 1 -> q_norm2 b = 1 -> ordinary eps (q_mul (q_conj a) b) \/ same_rotation a b ->
  same_rotation (quat_integrate a (so3_log eps (q_mul (q_conj a) b)) 1) b.
Proof.
  intros He Ha Hb Hr. set (r := q_mul (q_conj a) b) in *.
  assert (Nr : q_norm2 r = 1) by (unfold r; rewrite q_norm2_mul, q_norm2_conj, Ha, Hb; ring).
  assert (AR : q_mul a r = b) by (unfold r; now rewrite <- q_mul_assoc, q_mul_conj_r, q_mul_one_l).
  rewrite quat_integrate_step. destruct Hr as [Hr|Hr].
  - destruct (step_of_log eps r ltac:(lra) Nr Hr) as [->| ->].
    + rewrite AR. left. now apply q_normalize_unit.
    + rewrite q_mul_neg_r, AR. right. apply q_normalize_unit. rewrite <- Hb. unfold q_norm2, q_neg; cbn; ring.
  - assert (Z : so3_log eps r = v3_zero) by (apply so3_log_zero; [exact He|exact Nr|]; now apply relative_rotation).
    rewrite Z, step_zero, q_mul_one_r, q_normalize_unit by exact Ha. exact Hr.
Qed.
