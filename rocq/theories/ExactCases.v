(** Concrete cases for PropsExact. *)
From Verif Require Import Base Lin LinFacts Mjx Typing Component Problem SpecComponent SpecJoint SpecHistory SpecShape SpecValue SpecProblem SpecQP SpecConf Rot Conf JaxComponents LocalIK.
From Verif Require Import QPThms4 QPThms5 ConfCases ValueCases Witness QPCases SpecExact ExactThms.
Open Scope R_scope.

Lemma asymmetric_case L d : exists Q, assemble L (jd_model lim_pd) lim_pd d = Ok Q /\ filter is_barrier (comps_of lim_pd) = [] /\ vle (jd_vmin lim_pd) (jd_vmax lim_pd) /\
  jd_vmax lim_pd <> vneg (jd_vmin lim_pd) /\ satisfies_ineq (qp_G Q) (qp_h Q) [-2; -3].
Proof.
  assert (HQ : exists Q, assemble L arm2 lim_pd d = Ok Q) by (apply assemble_finite; [reflexivity|constructor|intros ? ? []]).
  destruct HQ as [Q HQ]. exists Q. split; [exact HQ|]. split; [reflexivity|]. split; [constructor; [lra|constructor; [lra|constructor]]|].
  split; [cbn; intros E; injection E as E1 E2; lra|]. apply (feasible_box L arm2 lim_pd d Q); try reflexivity; [exact HQ|constructor|].
  split; cbn; (constructor; [lra|constructor; [lra|constructor]]).
Qed.
Lemma flips_case : unit_pose (mkS q_one (mkV 1 0 0)) /\ ~ flips (mkS q_one (mkV 1 0 0)) /\ unit_pose (mkS (mkQ 0 0 0 1) (mkV 1 0 0)) /\ flips (mkS (mkQ 0 0 0 1) (mkV 1 0 0)) /\
  exists T1 T2, pose_of_body two_frames 1 T1 /\ pose_of_body two_frames 2 T2 /\ unit_pose T1 /\ unit_pose T2 /\ ~ flips T1.
Proof.
  assert (N : forall x, x <> 0 -> ~ flips (mkS q_one (mkV x 0 0))).
  { intros x Hx [[_ H]|[H _]]; [injection H as H; contradiction|cbn in H; lra]. }
  assert (U : forall p, unit_pose (mkS q_one p)) by (intros p; unfold unit_pose, q_norm2; cbn; ring).
  split; [apply U|]. split; [apply N; lra|]. split; [unfold unit_pose, q_norm2; cbn; ring|]. split; [right; cbn; split; [reflexivity|unfold v3_dot; cbn; ring]|].
  exists (at_x 1), (at_x 2). split; [split; reflexivity|]. split; [split; reflexivity|]. split; [apply U|]. split; [apply U|]. apply N. lra.
Qed.
