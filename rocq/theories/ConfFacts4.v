(** Rates of change, relative transforms, configuration limits. *)
From Verif Require Import Base Lin LinFacts Mjx SpecJoint JointFacts Rot Conf SpecMotion MotionFacts MotionFacts2 SpecConf ConfFacts ConfFacts2 ConfFacts3.
Open Scope R_scope.

Lemma derivative_ext f g l : (forall t, f t = g t) -> derivative_at_0 f l -> derivative_at_0 g l.
Proof. intros H D e He. destruct (D e He) as (d & Hd). exists d. intros h Hh Hb. rewrite <- !H. now apply Hd. Qed.
Lemma derivative_affine a b : derivative_at_0 (fun t => a + t * b) b.
Proof.
  intros e He. exists (mkposreal 1 Rlt_0_1). intros h Hh _. rewrite Rplus_0_l. replace ((a + h * b - (a + 0 * b)) / h - b) with 0 by (field; exact Hh). now rewrite Rabs_R0.
Qed.
Lemma derivative_wave A B c : derivative_at_0 (fun t => A * cos (t * c) + B * sin (t * c)) (B * c).
Proof.
  assert (L : derivable_pt_lim (fun t => t * c) 0 c).
  { apply (derivative_ext (fun t => 0 + t * c)); [intros; ring|]. apply derivative_affine. }
  assert (C : derivable_pt_lim (fun t => cos (t * c)) 0 0).
  { assert (X : 0 = - sin (0 * c) * c) by (rewrite Rmult_0_l, sin_0; ring). rewrite X at 2. apply (derivable_pt_lim_comp (fun t => t * c) cos); [exact L|]. apply derivable_pt_lim_cos. }
  assert (S : derivable_pt_lim (fun t => sin (t * c)) 0 c).
  { assert (X : c = cos (0 * c) * c) by (rewrite Rmult_0_l, cos_0; ring). replace (derivable_pt_lim (fun t => sin (t * c)) 0 c) with (derivable_pt_lim (fun t => sin (t * c)) 0 (cos (0 * c) * c)) by now rewrite <- X. apply (derivable_pt_lim_comp (fun t => t * c) sin); [exact L|]. apply derivable_pt_lim_sin. }
  unfold derivative_at_0. replace (B * c) with (A * 0 + B * c) by ring.
  apply (derivable_pt_lim_plus (fun t => A * cos (t * c)) (fun t => B * sin (t * c))); now apply derivable_pt_lim_scal.
Qed.

Lemma step_unit v dt : q_norm2 (step_quat v dt) = 1.
Proof. apply (step_quat_unit v dt). Qed.
Lemma safe_axis x v : (v3_norm2 v = 0 -> x = 0) -> safe_div x (sqrt (v3_norm2 v)) * sqrt (v3_norm2 v) = x.
Proof.
  intros Z. unfold safe_div. destruct (Req_EM_T (sqrt (v3_norm2 v)) 0) as [E|E].
  - rewrite E. rewrite Rmult_0_r. symmetry. apply Z. apply sqrt_eq_0; [apply v3_norm2_nonneg|exact E].
  - rewrite Rplus_0_r. field. exact E.
Qed.
(** Derivative of the integrated quaternion at time 0, component by component. *)
Lemma quat_rate q w : q_norm2 q = 1 ->
  let r := q_mul q (q_pure w) in
  derivative_at_0 (fun t => qw (quat_integrate q w t)) (qw r / 2) /\ derivative_at_0 (fun t => qx (quat_integrate q w t)) (qx r / 2) /\
  derivative_at_0 (fun t => qy (quat_integrate q w t)) (qy r / 2) /\ derivative_at_0 (fun t => qz (quat_integrate q w t)) (qz r / 2).
Proof.
  intros Hq r. set (n := sqrt (v3_norm2 w)). set (c := n * (1 / 2)).
  set (a1 := safe_div (vx w) n). set (a2 := safe_div (vy w) n). set (a3 := safe_div (vz w) n).
  assert (F : forall t, quat_integrate q w t = q_mul q (mkQ (cos (t * c)) (a1 * sin (t * c)) (a2 * sin (t * c)) (a3 * sin (t * c)))).
  { intros t. rewrite quat_integrate_step, q_normalize_unit by (rewrite q_norm2_mul, step_unit, Hq; ring). f_equal. unfold step_quat. cbv zeta. fold n.
    unfold c, a1, a2, a3. replace (t * n * (1 / 2)) with (t * (n * (1 / 2))) by ring. reflexivity. }
  assert (Zw : v3_norm2 w = 0 -> vx w = 0 /\ vy w = 0 /\ vz w = 0).
  { intros Z. apply v3_norm2_zero in Z. rewrite Z. auto. }
  assert (X1 : a1 * n = vx w) by (apply safe_axis; intros Z; now apply Zw).
  assert (X2 : a2 * n = vy w) by (apply safe_axis; intros Z; now apply Zw).
  assert (X3 : a3 * n = vz w) by (apply safe_axis; intros Z; now apply Zw).
  assert (K : forall A B f, (forall t, A * cos (t * c) + B * sin (t * c) = f t) -> derivative_at_0 f (B * c)).
  { intros A B f H. apply (derivative_ext _ _ _ H), derivative_wave. }
  unfold r, q_mul, q_pure. cbn [qw qx qy qz]. rewrite <- X1, <- X2, <- X3. split; [|split; [|split]].
  - replace ((qw q * 0 - qx q * (a1 * n) - qy q * (a2 * n) - qz q * (a3 * n)) / 2) with ((- (qx q * a1 + qy q * a2 + qz q * a3)) * c) by (unfold c; field).
    apply (K (qw q)). intros t. rewrite F. unfold q_mul. cbn [qw qx qy qz]. ring.
  - replace ((qw q * (a1 * n) + qx q * 0 + qy q * (a3 * n) - qz q * (a2 * n)) / 2) with ((qw q * a1 + qy q * a3 - qz q * a2) * c) by (unfold c; field).
    apply (K (qx q)). intros t. rewrite F. unfold q_mul. cbn [qw qx qy qz]. ring.
  - replace ((qw q * (a2 * n) - qx q * (a3 * n) + qy q * 0 + qz q * (a1 * n)) / 2) with ((qw q * a2 - qx q * a3 + qz q * a1) * c) by (unfold c; field).
    apply (K (qy q)). intros t. rewrite F. unfold q_mul. cbn [qw qx qy qz]. ring.
  - replace ((qw q * (a3 * n) + qx q * (a2 * n) - qy q * (a1 * n) + qz q * 0) / 2) with ((qw q * a3 + qx q * a2 - qy q * a1) * c) by (unfold c; field).
    apply (K (qz q)). intros t. rewrite F. unfold q_mul. cbn [qw qx qy qz]. ring.
Qed.

Lemma configuration_rate m q v E : wf_joints m -> List.length q = m_nq m -> List.length v = m_nv m -> normalised m q -> jac_dq2v m q = Ok E ->
  (forall j, scalar_joint m j -> derivative_at_0 (entry_after m q v (qpos_of m j)) (nth (qpos_of m j) (mv E v) 0)) /\
  (forall j i, free_joint m j -> (i < 3)%nat -> derivative_at_0 (entry_after m q v (qpos_of m j + i)) (nth (qpos_of m j + i) (mv E v) 0)) /\
  (forall j a b i, quat_joint m j a b -> (i < 4)%nat -> derivative_at_0 (entry_after m q v (a + i)) (nth (a + i) (mv E v) 0 / 2)).
Proof.
  intros Hw Hq Hv Hn HE. destruct (rate_spec m q v E Hw Hq Hv HE) as (ME & S1 & S2 & S3).
  assert (I : forall t, exists q', integrate m q v t = Ok q' /\ 
     (forall j t0, joint_type m j t0 -> is_scalar t0 = true -> nth (qpos_of m j) q' 0 = nth (qpos_of m j) q 0 + t * nth (dof_of m j) v 0) /\
     (forall j i, joint_type m j JFree -> (i < 3)%nat -> nth (qpos_of m j + i) q' 0 = nth (qpos_of m j + i) q 0 + t * nth (dof_of m j + i) v 0)).
  { intros t. destruct (integrate_spec m Hw q v t Hq Hv) as (q' & A & _ & B & C & _). exists q'. auto. }
  split; [|split].
  - intros j Hj. rewrite (S1 j Hj). destruct Hj as (t & Hj & Hs). apply (derivative_ext (fun s => nth (qpos_of m j) q 0 + s * nth (dof_of m j) v 0)); [|apply derivative_affine].
    intros s. unfold entry_after. destruct (I s) as (q' & -> & B & _). now rewrite (B j t Hj Hs).
  - intros j i Hj Hi. assert (R : nth (qpos_of m j + i) (mv E v) 0 = nth (dof_of m j + i) v 0).
    { specialize (S2 j Hj). unfold vec_in in S2. injection S2 as A B C. destruct i as [|[|[|i]]]; [rewrite !Nat.add_0_r; exact A|exact B|exact C|lia]. }
    rewrite R. apply (derivative_ext (fun s => nth (qpos_of m j + i) q 0 + s * nth (dof_of m j + i) v 0)); [|apply derivative_affine].
    intros s. unfold entry_after. destruct (I s) as (q' & -> & _ & C). now rewrite (C j i Hj Hi).
  - intros j a b i Hj Hi. specialize (S3 j a b Hj).
    assert (Nq : q_norm2 (quat_in q a) = 1).
    { rewrite <- norm2_in. apply (Hn j). destruct Hj as [(A & B & _)|(A & B & _)]; [left|right]; auto. }
    destruct (quat_rate (quat_in q a) (vec_in v b) Nq) as (D0 & D1 & D2 & D3). rewrite <- S3 in D0, D1, D2, D3.
    assert (Q : forall s, exists q', integrate m q v s = Ok q' /\ quat_in q' a = quat_integrate (quat_in q a) (vec_in v b) s).
    { intros s. destruct (I s) as (q' & A & _). exists q'. split; [exact A|]. now apply (integrate_quat m q v s q' Hw Hq Hv A j). }
    assert (P : forall s, mkQ (entry_after m q v a s) (entry_after m q v (a + 1) s) (entry_after m q v (a + 2) s) (entry_after m q v (a + 3) s) = quat_integrate (quat_in q a) (vec_in v b) s).
    { intros s. destruct (Q s) as (q' & A & B). unfold entry_after. rewrite A. exact B. }
    destruct i as [|[|[|[|i]]]]; [| | | |lia].
    + rewrite Nat.add_0_r. refine (derivative_ext _ _ _ _ D0). intros s. now rewrite <- P.
    + refine (derivative_ext _ _ _ _ D1). intros s. now rewrite <- P.
    + refine (derivative_ext _ _ _ _ D2). intros s. now rewrite <- P.
    + refine (derivative_ext _ _ _ _ D3). intros s. now rewrite <- P.
Qed.
(** The rate keeps unit quaternions unit to first order. *)
Lemma rate_tangent q w : qw q * qw (q_mul q (q_pure w)) + qx q * qx (q_mul q (q_pure w)) + qy q * qy (q_mul q (q_pure w)) + qz q * qz (q_mul q (q_pure w)) = 0.
Proof. unfold q_mul, q_pure. cbn [qw qx qy qz]. ring. Qed.

(** ** C62 *)
Lemma skew_cross v w : mv (skew_symmetric v) (v3_list w) = v3_list (cross v w).
Proof. unfold mv, skew_symmetric, dot, vmul, vmap2, v3_list, cross. cbn. repeat (f_equal; try ring). Qed.
Lemma skew_antisym v : tr 3 (skew_symmetric v) = mneg (skew_symmetric v).
Proof. unfold tr, mneg, skew_symmetric, vneg. cbn. repeat (f_equal; try ring). Qed.
Lemma attitude_mul q w : mv (attitude_jacobian q) (v3_list w) = q_list (q_mul q (q_pure w)).
Proof. unfold mv, attitude_jacobian, dot, vmul, vmap2, v3_list, q_list, q_mul, q_pure, q_im. cbn. repeat (f_equal; try ring). Qed.
Lemma attitude_orthogonal q : mv (tr 3 (attitude_jacobian q)) (q_list q) = vzero 3.
Proof. unfold mv, attitude_jacobian, dot, vmul, vmap2, v3_list, q_list, tr, vzero. cbn. repeat (f_equal; try ring). Qed.
Lemma attitude_gram q : mm 3 (tr 3 (attitude_jacobian q)) (attitude_jacobian q) = mscale (q_norm2 q) (eye 3).
Proof. unfold mm, vm, attitude_jacobian, tr, mscale, eye, unit_row, vadd, vscale, vmap2, vzero, q_norm2. cbn. repeat (f_equal; try ring). Qed.

(** ** C64 *)
Definition pose_of (d : mjdata) (i : Z) (T : se3) : Prop := get_transform_frame_to_world d i = Ok T.
Lemma se3_mul_id_l T : se3_mul se3_id T = T.
Proof. destruct T as [r p]. unfold se3_mul, se3_id. cbn [s_rot s_pos]. rewrite q_mul_one_l, q_app_one. f_equal. destruct p as [p1 p2 p3]. unfold v3_add, v3_zero. cbn [vx vy vz]. f_equal; ring. Qed.
Lemma se3_mul_id_r T : se3_mul T se3_id = T.
Proof. destruct T as [r p]. unfold se3_mul, se3_id. cbn [s_rot s_pos]. rewrite q_mul_one_r, q_app_zero. f_equal. destruct p as [p1 p2 p3]. unfold v3_add, v3_zero. cbn [vx vy vz]. f_equal; ring. Qed.

(** ** C66 *)
Lemma vle_app a b c d : List.length a = List.length c -> vle (a ++ b) (c ++ d) <-> vle a c /\ vle b d.
Proof.
  unfold vle. intros L. split.
  - intros H. apply Forall2_app_inv_len; auto.
  - intros [A B]. now apply Forall2_app.
Qed.
Lemma limit_rows n v la : List.length v = n -> List.length la = n ->
  (vle (mv (mscale (-1) (eye n) ++ eye n) v) (la ++ la) <-> forall i, (i < n)%nat -> Rabs (nth i v 0) <= nth i la 0).
Proof.
  intros Lv Ll. rewrite mv_app, mv_mscale, mv_eye by exact Lv. rewrite vle_app by (rewrite vscale_length; congruence).
  assert (N : forall a b : vec, List.length a = List.length b -> (vle a b <-> forall i, (i < List.length b)%nat -> nth i a 0 <= nth i b 0)).
  { clear. induction a as [|x a IH]; intros [|y b] L; try discriminate.
    - split; [intros _ i Hi; cbn in Hi; lia|constructor].
    - cbn in L. injection L as L. specialize (IH b L). split.
      + intros H. inversion H; subst. intros [|i] Hi; [assumption|]. cbn in *. apply IH; [assumption|lia].
      + intros H. constructor; [apply (H 0%nat); cbn; lia|]. apply IH. intros i Hi. apply (H (S i)). cbn. lia. }
  rewrite !N by (rewrite ?vscale_length; congruence). rewrite Ll. split.
  - intros [A B] i Hi. specialize (A i Hi). specialize (B i Hi). rewrite nth_vscale in A. apply Rabs_le. lra.
  - intros H. split; intros i Hi; specialize (H i Hi); pose proof (Rle_abs (nth i v 0)); pose proof (Rle_abs (- nth i v 0)) as P; rewrite Rabs_Ropp in P; rewrite ?nth_vscale; lra.
Qed.
Lemma nth_vconst n x i : (i < n)%nat -> nth i (vconst n x) 0 = x.
Proof. intros H. unfold vconst. rewrite (nth_indep _ 0 x) by (rewrite repeat_length; exact H). apply nth_repeat. Qed.
