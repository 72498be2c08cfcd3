(** Automatic Jacobians along motions. *)
From Coq Require Import Lia.
From Verif Require Import Base Lin Mjx Typing Component SpecJoint SpecMotion SpecConf Rot Conf JaxComponents SpecDeriv LinFacts MotionFacts MotionFacts2 ConfFacts ConfFacts2 ConfFacts3 ConfFacts4 DerivFacts.
Open Scope R_scope.

(** Every entry of qpos is a hinge or slide coordinate, a translation of a free joint, or
    part of a quaternion. *)
Lemma entries m i : wf_joints m -> (i < m_nq m)%nat ->
  (exists j, scalar_joint m j /\ i = qpos_of m j) \/ (exists j k, free_joint m j /\ (k < 3)%nat /\ i = (qpos_of m j + k)%nat) \/
  (exists j a b k, quat_joint m j a b /\ quat_address m j a /\ (k < 4)%nat /\ i = (a + k)%nat).
Proof.
  intros Hw Hi. pose proof Hw as (_ & _ & _ & Hnq & _). rewrite Hnq in Hi. destruct (cover jnt_nq (m_jnt_type m) i Hi) as (j & t & Hj & Hp).
  pose proof (qpos_pos m Hw j t Hj) as Hqp. rewrite <- Hqp in Hp. destruct t; cbn [jnt_nq] in Hp.
  - right. destruct (Nat.lt_ge_cases i (qpos_of m j + 3)) as [C|C].
    + left. exists j, (i - qpos_of m j)%nat. split; [exact Hj|]. split; lia.
    + right. exists j, (qpos_of m j + 3)%nat, (dof_of m j + 3)%nat, (i - (qpos_of m j + 3))%nat. split; [left; split; [exact Hj|split; reflexivity]|]. split; [left; split; [exact Hj|reflexivity]|]. split; lia.
  - right. right. exists j, (qpos_of m j), (dof_of m j), (i - qpos_of m j)%nat. split; [right; split; [exact Hj|split; reflexivity]|]. split; [right; split; [exact Hj|reflexivity]|]. split; lia.
  - left. exists j. split; [exists JHinge; split; [exact Hj|reflexivity]|lia].
  - left. exists j. split; [exists JSlide; split; [exact Hj|reflexivity]|lia].
Qed.
Lemma quat_in_nth q a k : (k < 4)%nat -> nth (a + k) q 0 = nth k (q_list (quat_in q a)) 0.
Proof. intros H. destruct k as [|[|[|[|k]]]]; try lia; cbn; f_equal; lia. Qed.
Lemma vec_in_nth q a k : (k < 3)%nat -> nth (a + k) q 0 = nth k (v3_list (vec_in q a)) 0.
Proof. intros H. destruct k as [|[|[|k]]]; try lia; cbn; f_equal; lia. Qed.

Lemma rates m q v w E : wf_joints m -> List.length q = m_nq m -> List.length v = m_nv m -> normalised m q -> jac_dq2v m q = Ok E -> turns_twice m v w ->
  forall i, (i < m_nq m)%nat -> derivative_at_0 (entry_after m q w i) (nth i (mv E v) 0).
Proof.
  intros Hw Hq Hv Hn HE (Lw & Ts & Tf & Tq) i Hi. assert (Hww : List.length w = m_nv m) by congruence.
  destruct (configuration_rate m q w E Hw Hq Hww Hn HE) as (Rs & Rf & Rq).
  destruct (rate_spec m q v E Hw Hq Hv HE) as (_ & Vs & Vf & Vq). destruct (rate_spec m q w E Hw Hq Hww HE) as (_ & Ws & Wf & Wq).
  destruct (entries m i Hw Hi) as [(j & Hj & ->)|[(j & k & Hj & Hk & ->)|(j & a & b & k & Hj & _ & Hk & ->)]].
  - rewrite (Vs j Hj), <- (Ts j Hj), <- (Ws j Hj). now apply Rs.
  - rewrite vec_in_nth, (Vf j Hj), <- (Tf j Hj), <- (Wf j Hj), <- vec_in_nth by exact Hk. now apply Rf.
  - replace (nth (a + k) (mv E v) 0) with (nth (a + k) (mv E w) 0 / 2); [now apply (Rq j a b)|].
    rewrite !quat_in_nth, (Vq j a b Hj), (Wq j a b Hj), (Tq j a b Hj) by exact Hk. unfold q_mul, q_pure, v3_scale.
    destruct k as [|[|[|[|k]]]]; try lia; cbn [q_list nth qw qx qy qz vx vy vz]; field.
Qed.
Lemma integrate_now m q v : wf_joints m -> List.length q = m_nq m -> List.length v = m_nv m -> normalised m q -> integrate m q v 0 = Ok q.
Proof.
  intros Hw Hq Hv Hn. destruct (integrate_spec m Hw q v 0 Hq Hv) as (q' & E & L & Is & If & _). rewrite E. f_equal. apply list_ext; [congruence|]. intros i Hi. rewrite L in Hi.
  destruct (entries m i Hw Hi) as [(j & (t & Hj & Ht) & ->)|[(j & k & Hj & Hk & ->)|(j & a & b & k & Hj & Ha & Hk & ->)]].
  - rewrite (Is j t Hj Ht). ring.
  - rewrite (If j k Hj Hk). ring.
  - rewrite !quat_in_nth by exact Hk. f_equal. f_equal. rewrite (integrate_quat m q v 0 q' Hw Hq Hv E j a b Hj). unfold quat_integrate. rewrite Rmult_0_l, Rmult_0_l, sin_0, cos_0, !Rmult_0_r.
    change (mkQ 1 0 0 0) with q_one. rewrite q_mul_one_r. apply q_normalize_unit. exact (Hn j a Ha).
Qed.
Lemma integrate_length m q v t : wf_joints m -> List.length q = m_nq m -> List.length v = m_nv m -> exists q', integrate m q v t = Ok q' /\ List.length q' = m_nq m.
Proof. intros Hw Hq Hv. destruct (integrate_spec m Hw q v t Hq Hv) as (q' & E & L & _). now exists q'. Qed.

(** A differentiable function of the configuration along a motion. *)
Lemma motion_rate m (F : vec -> R) g q v w E : wf_joints m -> List.length q = m_nq m -> List.length v = m_nv m -> normalised m q -> jac_dq2v m q = Ok E -> turns_twice m v w ->
  has_gradient F q g -> derivative_at_0 (fun t => match integrate m q w t with Ok q' => F q' | Err _ => 0 end) (dot g (mv E v)).
Proof.
  intros Hw Hq Hv Hn HE Ht HF. assert (Hww : List.length w = m_nv m) by (destruct Ht; congruence).
  set (c := fun t => match integrate m q w t with Ok q' => q' | Err _ => [] end).
  assert (C : forall t, integrate m q w t = Ok (c t) /\ List.length (c t) = m_nq m). { intros t. destruct (integrate_length m q w t Hw Hq Hww) as (q' & A & B). unfold c. rewrite A. auto. }
  apply derivative_ext with (f := fun t => F (c t)); [intros t; destruct (C t) as [-> _]; reflexivity|].
  destruct (jac_dq2v_spec m q Hw Hq) as (E' & HE' & ME & _). rewrite HE in HE'. injection HE' as <-.
  apply grad_curve with (x := q); [exact HF|now rewrite mv_length, (proj1 ME)|intros t; now rewrite (proj2 (C t))|unfold c; now rewrite integrate_now|].
  intros i Hi. rewrite Hq in Hi. pose proof (rates m q v w E Hw Hq Hv Hn HE Ht i Hi) as K. eapply derivative_ext; [|exact K]. intros t. unfold entry_after. rewrite (proj1 (C t)). reflexivity.
Qed.

Lemma all_scalar ts : total jnt_nq ts = total jnt_nv ts -> Forall (fun t => is_scalar t = true) ts.
Proof.
  assert (LE : forall l, (total jnt_nv l <= total jnt_nq l)%nat) by (induction l as [|[] l IH]; cbn in *; unfold total in *; cbn; lia).
  induction ts as [|t ts IH]; intros H; constructor; specialize (LE ts); unfold total in *; cbn in H; destruct t; cbn in *; try lia; try reflexivity; apply IH; lia.
Qed.
Lemma scalar_turns m v : wf_joints m -> m_nq m = m_nv m -> turns_twice m v v.
Proof.
  intros Hw He. pose proof Hw as (_ & _ & _ & Hnq & Hnv & _). assert (S : Forall (fun t => is_scalar t = true) (m_jnt_type m)) by (apply all_scalar; congruence).
  assert (N : forall j t, joint_type m j t -> is_scalar t = true) by (intros j t Hj; rewrite Forall_forall in S; apply S; eapply nth_error_In; exact Hj).
  split; [reflexivity|]. split; [reflexivity|]. split; [reflexivity|]. intros j a b [(Hj & _)|(Hj & _)]; apply N in Hj; discriminate.
Qed.
Lemma scalar_normalised m q : wf_joints m -> m_nq m = m_nv m -> normalised m q.
Proof.
  intros Hw He. pose proof Hw as (_ & _ & _ & Hnq & Hnv & _). assert (S : Forall (fun t => is_scalar t = true) (m_jnt_type m)) by (apply all_scalar; congruence).
  intros j a [[Hj _]|[Hj _]]; rewrite Forall_forall in S; unfold joint_type in Hj; apply nth_error_In in Hj; apply S in Hj; discriminate.
Qed.
Lemma scalar_rate m q v E : wf_joints m -> m_nq m = m_nv m -> List.length q = m_nq m -> List.length v = m_nv m -> jac_dq2v m q = Ok E -> mv E v = v.
Proof.
  intros Hw He Hq Hv HE. pose proof Hw as (_ & _ & _ & Hnq & Hnv & _). destruct (rate_spec m q v E Hw Hq Hv HE) as (ME & Vs & _).
  assert (S : Forall (fun t => is_scalar t = true) (m_jnt_type m)) by (apply all_scalar; congruence).
  apply list_ext; [rewrite mv_length, (proj1 ME); congruence|]. intros i Hi. rewrite mv_length, (proj1 ME) in Hi.
  destruct (entries m i Hw Hi) as [(j & Hj & ->)|[(j & k & Hj & _)|(j & a & b & k & Hj & _)]].
  - rewrite (Vs j Hj). f_equal. destruct Hj as (t & Hj & _). rewrite (qpos_pos m Hw j t Hj), (dof_pos m Hw j t Hj). unfold pos.
    assert (T : forall l, Forall (fun t => is_scalar t = true) l -> total jnt_nq l = total jnt_nv l) by (induction 1 as [|x l X _ IH]; [reflexivity|]; unfold total in *; cbn; destruct x; try discriminate; cbn; lia).
    symmetry. apply T. apply Forall_forall. intros x Hx. rewrite Forall_forall in S. apply S. rewrite <- (firstn_skipn j (m_jnt_type m)). apply in_or_app. now left.
  - exfalso. rewrite Forall_forall in S. unfold free_joint, joint_type in Hj. apply nth_error_In in Hj. apply S in Hj. discriminate.
  - exfalso. rewrite Forall_forall in S. destruct Hj as [[Hj _]|[Hj _]]; unfold joint_type in Hj; apply nth_error_In in Hj; apply S in Hj; discriminate.
Qed.

(** The Jacobian of a component with an automatic Jacobian. *)
Lemma auto_jacobian L j k q M : sound_jac (l_jacrev L) -> automatic j -> kinematic L j -> List.length q = m_nq (j_model j) ->
  (forall y, List.length y = m_nq (j_model j) -> exists e, call L j (update L (j_model j) y) = Ok e /\ List.length e = k) ->
  is_mat k (m_nq (j_model j)) M -> has_jacobian (value_at L j) q M -> d_qpos (update L (j_model j) q) = q ->
  jacobian L j (update L (j_model j) q) = to_velocity (j_model j) (update L (j_model j) q) M.
Proof.
  intros Hs Ha Hk Hq Ht HM HJ Hd. set (m := j_model j) in *.
  assert (V : forall y, List.length y = m_nq m -> call L j (update L m y) = Ok (value_at L j y) /\ List.length (value_at L j y) = k).
  { intros y Hy. destruct (Ht y Hy) as (e & He & Le). unfold value_at. fold m. rewrite He. auto. }
  assert (A : (forall y, List.length y = m_nq m -> call L j (kin L m y) = call L j (update L m y)) -> jac_auto L j (update L m q) = to_velocity m (update L m q) M).
  { intros K. unfold jac_auto. fold m. rewrite Hd. rewrite (Hs _ (value_at L j) q k M); [reflexivity| |now rewrite Hq|exact HJ].
    intros y Hy. rewrite Hq in Hy. rewrite (K y Hy). now apply V. }
  assert (B : (forall y, List.length y = m_nq m -> exists d, com_update L m y = Ok d /\ call L j d = call L j (update L m y)) -> jac_com L j (update L m q) = to_velocity m (update L m q) M).
  { intros K. unfold jac_com. fold m. rewrite Hd. rewrite (Hs _ (value_at L j) q k M); [reflexivity| |now rewrite Hq|exact HJ].
    intros y Hy. rewrite Hq in Hy. destruct (K y Hy) as (d & E1 & E2). rewrite E1. cbn [bind]. rewrite E2. now apply V. }
  unfold automatic in Ha. unfold kinematic in Hk. fold m in Hk. unfold jacobian. destruct (j_ext j) as [? ? []|? []|? ? ? []]; try contradiction; auto.
Qed.
Lemma mm_dims k n p A B : is_mat k n A -> is_mat n p B -> is_mat k p (mm p A B).
Proof. intros HA HB. exact (mm_is_mat p k n A B (proj1 HA) HB). Qed.

Theorem automatic_along_motion L j k q v w : let m := j_model j in sound_jac (l_jacrev L) -> automatic j -> kinematic L j -> wf_joints m -> smooth L j k q ->
  List.length q = m_nq m -> normalised m q -> d_qpos (update L m q) = q -> List.length v = m_nv m -> turns_twice m v w ->
  exists J, jacobian L j (update L m q) = Ok J /\ is_mat k (m_nv m) J /\
  forall i, (i < k)%nat -> derivative_at_0 (fun t => nth i (value_after L j q w t) 0) (nth i (mv J v) 0).
Proof.
  cbv zeta. intros Hs Ha Hk Hw (Ht & M & HM & HJ) Hq Hn Hd Hv Htt. set (m := j_model j) in *.
  destruct (jac_dq2v_spec m q Hw Hq) as (E & HE & ME & _).
  assert (G : forall i, (i < k)%nat -> derivative_at_0 (fun t => nth i (value_after L j q w t) 0) (nth i (mv M (mv E v)) 0)).
  { intros i Hi. rewrite mv_nth by (rewrite (proj1 HM); exact Hi). eapply derivative_ext; [|apply (motion_rate m (fun y => nth i (value_at L j y) 0) (nth i M []) q v w E); auto; apply HJ; rewrite (proj1 HM); exact Hi].
    intros t. unfold value_after. fold m. destruct (integrate m q w t); [reflexivity|]. now destruct i. }
  pose proof (auto_jacobian L j k q M Hs Ha Hk Hq Ht HM HJ Hd) as A. fold m in A. rewrite A. unfold to_velocity. destruct (Nat.eqb (m_nq m) (m_nv m)) eqn:N.
  - apply Nat.eqb_eq in N. exists M. split; [reflexivity|]. split; [now rewrite <- N|]. intros i Hi. specialize (G i Hi). rewrite (scalar_rate m q v E) in G by auto. exact G.
  - rewrite Hd, HE. cbn [bind]. assert (HM2 : is_mat (List.length M) (m_nq m) M) by (destruct HM as [HM1 HM2]; split; [reflexivity|exact HM2]).
    rewrite (proj2 (is_matb_spec _ _ _) HM2). exists (mm (m_nv m) M E). split; [reflexivity|]. split; [exact (mm_dims _ _ _ _ _ HM ME)|].
    intros i Hi. rewrite mv_mm by apply ME. now apply G.
Qed.
