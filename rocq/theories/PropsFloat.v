(** C127, C128, C129 on the simplest floating robot: one body on one free joint, standing at
    the origin, with the body one unit along the first axis.  A free joint slides and turns,
    and its turning is counted twice, so there are exact solvers whose answers do not do what
    is asked.  Other answers of exact solvers do: the problems have many best velocities. *)
From Verif Require Import Base Lin Mjx Typing Component Problem SpecComponent SpecJoint SpecHistory SpecMotion SpecConf Rot Conf FrameJac JaxComponents LocalIK Witness SpecTree SpecShape SpecValue SpecDeriv SpecQP SpecSolve SpecDescent SpecFit SpecProblem SpecDrift.
From Verif Require Import ConfCases DerivCases LogCases FloatCases.
Open Scope R_scope.

(** The body moves away from its target: the squared distance, which is 1, grows at rate 4. *)
Theorem C127_floating_base_refuted D : sound_jac D -> shaped_jac D -> exists L os pd j q So s v, l_jacrev L = D /\ let m := j_model j in m_jnt_type m = [JFree] /\ tidy m os /\ compiled_by os 0 pd /\ sound_lib L m /\ comps_of pd = [j] /\
  position_task None "tip" OBody j /\ target_is j [1; 1; 0] /\ uniform 2 j /\ List.length q = m_nq m /\ normalised m q /\ smooth L j 3 q /\ admissible L (update L m q) pd (vzero (m_nv m)) /\
  (forall y, List.length y = m_nq m -> position (update L m y) OBody 1 = v3_list (buoy y)) /\
  exact_at L So m pd (update L m q) /\ solve L So m (tvec q) [] pd = Ok (s, v) /\ derivative_at_0 (fun t => sq (value_after L j q v t)) 4.
Proof. exact (float_drift D). Qed.
Print Assumptions C127_floating_base_refuted.
(** The second coordinate is at its limit 0 and falls at rate 1. *)
Theorem C128_floating_base_refuted D : sound_jac D -> shaped_jac D -> exists L os pd j q So s v, l_jacrev L = D /\ let m := j_model j in m_jnt_type m = [JFree] /\ tidy m os /\ compiled_by os 0 pd /\ sound_lib L m /\ comps_of pd = [j] /\
  position_barrier (Some (mvec [0; 1; 0]%Z)) "tip" OBody "min" j /\ uniform 1 j /\ List.length q = m_nq m /\ normalised m q /\ smooth L j 1 q /\ value_at L j q = [0] /\ may_rest L (update L m q) pd /\
  (forall y, List.length y = m_nq m -> position (update L m y) OBody 1 = v3_list (buoy y)) /\
  exact_at L So m pd (update L m q) /\ solve L So m (tvec q) [] pd = Ok (s, v) /\ derivative_at_0 (fun t => nth 0 (value_after L j q v t) 0) (-1).
Proof. exact (float_cross D). Qed.
Print Assumptions C128_floating_base_refuted.
(** The second coordinate, which a hard constraint asks to be 0 and which is 0, falls at rate 1. *)
Theorem C129_floating_base_refuted D : sound_jac D -> shaped_jac D -> exists L os pd j q So s v W f, l_jacrev L = D /\ let m := j_model j in m_jnt_type m = [JFree] /\ tidy m os /\ compiled_by os 0 pd /\ sound_lib L m /\ comps_of pd = [j] /\
  j_ext j = JConstraint true true W (JCCustom f) /\ uniform 1 j /\ List.length q = m_nq m /\ normalised m q /\ smooth L j 1 q /\ value_at L j q = [0] /\ may_rest L (update L m q) pd /\
  (forall y, List.length y = m_nq m -> value_at L j y = [vy (buoy y)] /\ position (update L m y) OBody 1 = v3_list (buoy y)) /\
  exact_at L So m pd (update L m q) /\ solve L So m (tvec q) [] pd = Ok (s, v) /\ derivative_at_0 (fun t => nth 0 (value_after L j q v t) 0) (-1).
Proof. exact (float_slip D). Qed.
Print Assumptions C129_floating_base_refuted.
