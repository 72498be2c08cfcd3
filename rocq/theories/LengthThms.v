(** Ball joints without velocities, and cases. *)
From Verif Require Import Base Lin LinFacts Mjx SpecJoint JointFacts Witness Rot Conf IntegrateFacts SpecMotion MotionFacts MotionFacts2 SpecConf ConfFacts SpecLengths LengthFacts.
Open Scope R_scope.

Definition third_turn : quat := mkQ (1 / 2) (1 / 2) (1 / 2) (1 / 2).
Lemma ball_turns m q v dt q' j : wf_joints m -> List.length q = m_nq m -> joint_type m j JBall -> (List.length v <= dof_of m j)%nat ->
  norm2_at q (qpos_of m j) = 1 -> integrate m q v dt = Ok q' -> quat_in q' (qpos_of m j) = q_mul (quat_in q (qpos_of m j)) third_turn.
Proof.
  intros Hw Hq Hj Hv Hn H. pose proof Hw as (_ & _ & _ & Hnq & _). set (a := qpos_of m j) in *.
  pose proof (integrate_all_segments (m_jnt_type m) 0 0 q v dt q' ltac:(rewrite Hq, Hnq; apply Nat.le_refl) H j JBall Hj) as S.
  rewrite <- (qpos_pos m Hw _ _ Hj), <- (dof_pos m Hw _ _ Hj) in S. cbn [Nat.add jnt_nq integrate_at] in S. fold a in S.
  pose proof (qpos_end m Hw j _ Hj) as E1. cbn [jnt_nq] in E1. fold a in E1.
  assert (Ev : slice (dof_of m j) 3 v = []) by (unfold slice; rewrite skipn_all2 by exact Hv; reflexivity). rewrite Ev in S.
  assert (Eq : slice a 4 q = [nth a q 0; nth (a + 1) q 0; nth (a + 2) q 0; nth (a + 3) q 0]).
  { pose proof (quat_at_nth a q ltac:(lia)) as Q. unfold quat_at in Q. destruct (slice a 4 q) as [|x [|y [|z [|w [|]]]]]; try discriminate. cbn in Q. now injection Q as -> -> -> ->. }
  rewrite Eq in S. unfold jx_quat_integrate in S. rewrite jx_quat_four in S. cbn [bind] in S.
  assert (T : turn_entries [] dt = [1]). { unfold turn_entries. cbn [map fold_right]. rewrite sqrt_0, Rmult_0_r, Rmult_0_l, cos_0. reflexivity. }
  rewrite T in S. assert (J : jx_quat [1] = Ok (mkQ 1 1 1 1)) by reflexivity. rewrite J in S. cbn [bind] in S. injection S as S.
  assert (R : q_normalize (q_mul (quat_in q a) (mkQ 1 1 1 1)) = q_mul (quat_in q a) third_turn).
  { rewrite <- (q_normalize_scaled 2 (q_mul (quat_in q a) third_turn)).
    - f_equal. unfold q_mul, third_turn. cbn. f_equal; field.
    - lra.
    - rewrite q_norm2_mul. unfold norm2_at in Hn. unfold q_norm2 at 1, quat_in. cbn [qw qx qy qz]. rewrite Hn. unfold q_norm2, third_turn. cbn. field. }
  unfold quat_in in R at 1. rewrite R in S. symmetry in S. unfold quat_in at 1. rewrite <- (Nat.add_0_r a) at 1.
  rewrite !(slice_entries a 4 q' _ S) by lia. unfold q_list. cbn [nth]. now destruct (q_mul (quat_in q a) third_turn).
Qed.

(** The robot of tests/unit_tests/configuration/test_configuration.py:30-55 and
    the call of lines 117-121. *)
Definition hbh : mjmodel := chain [JHinge; JBall; JHinge].
Lemma hbh_case : wf_joints hbh /\ m_nv hbh = 5%nat /\ List.length [0; 0; 0; 0; 1; 0] = m_nq hbh /\ (forall j, enough_for hbh 1 j) /\
  joint_type hbh 1 JBall /\ dof_of hbh 1 = 1%nat /\ norm2_at [0; 0; 0; 0; 1; 0] (qpos_of hbh 1) = 1 /\
  integrate hbh [0; 0; 0; 0; 1; 0] [1 / 10] (1 / 10) = Ok [1 / 100; - (1 / 2); - (1 / 2); 1 / 2; 1 / 2; 1 / 100].
Proof.
  assert (W : wf_joints hbh) by apply chain_joints. assert (N : norm2_at [0; 0; 0; 0; 1; 0] (qpos_of hbh 1) = 1) by (unfold norm2_at; cbn; lra).
  assert (En : forall j, enough_for hbh 1 j) by (intros [|[|[|[|j]]]]; cbn; try exact I; try lia).
  split; [exact W|]. split; [reflexivity|]. split; [reflexivity|]. split; [exact En|]. split; [reflexivity|]. split; [reflexivity|]. split; [exact N|].
  unfold integrate, hbh, chain. cbn [m_jnt_type integrate_all integrate_at].
  change (jx_idx [0; 0; 0; 0; 1; 0] (Z.of_nat 0)) with (Ok 0). change (jx_idx [1 / 10] (Z.of_nat 0)) with (Ok (1 / 10)). cbn [bind Nat.add jnt_nq jnt_nv].
  change (jx_idx [0; 0; 0; 0; 1; 0] (Z.of_nat 5)) with (Ok 0). change (jx_idx [1 / 10] (Z.of_nat 4)) with (Ok (1 / 10)).
  assert (B : jx_quat_integrate (slice 1 4 [0; 0; 0; 0; 1; 0]) (slice 1 3 [1 / 10]) (1 / 10) = Ok [- (1 / 2); - (1 / 2); 1 / 2; 1 / 2]).
  { unfold jx_quat_integrate. change (slice 1 4 [0; 0; 0; 0; 1; 0]) with [0; 0; 0; 1]. rewrite jx_quat_four. cbn [bind].
    change (slice 1 3 [1 / 10]) with (@nil R). assert (T : turn_entries [] (1 / 10) = [1]). { unfold turn_entries. cbn [map fold_right]. rewrite sqrt_0, Rmult_0_r, Rmult_0_l, cos_0. reflexivity. }
    rewrite T. change (jx_quat [1]) with (Ok (mkQ 1 1 1 1)). cbn [bind]. f_equal.
    replace (q_mul (mkQ 0 0 0 1) (mkQ 1 1 1 1)) with (mkQ (2 * qw (mkQ (- (1 / 2)) (- (1 / 2)) (1 / 2) (1 / 2))) (2 * qx (mkQ (- (1 / 2)) (- (1 / 2)) (1 / 2) (1 / 2))) (2 * qy (mkQ (- (1 / 2)) (- (1 / 2)) (1 / 2) (1 / 2))) (2 * qz (mkQ (- (1 / 2)) (- (1 / 2)) (1 / 2) (1 / 2)))) by (unfold q_mul; cbn; f_equal; field).
    rewrite q_normalize_scaled; [reflexivity|lra|unfold q_norm2; cbn; field]. }
  rewrite B. cbn [bind app]. replace (0 + 1 / 10 * (1 / 10)) with (1 / 100) by field. reflexivity.
Qed.
Lemma arm_case : only_scalar_joints (chain [JHinge; JHinge; JSlide]) /\
  integrate (chain [JHinge; JHinge; JSlide]) [1; 2; 3] [10; 20] 1 = Ok [11; 22; 23].
Proof.
  split; [intros [|[|[|[|j]]]] t H; cbn in H; try discriminate; injection H as <-; auto|].
  rewrite integrate_repeats; [|intros [|[|[|[|j]]]] t H; cbn in H; try discriminate; injection H as <-; auto|discriminate|discriminate].
  unfold entry_or_last. cbn. do 2 f_equal; [lra|]. f_equal; [lra|]. f_equal. lra.
Qed.
Lemma free_case : enough_for floating 1 0 /\ ~ enough_for floating 2 0 /\ enough_for floating 3 0 /\ ~ enough_for floating 0 0.
Proof. cbn. repeat split; try lia; intros [A B]; try lia; apply B; reflexivity. Qed.
