(** C128, C129: what the solver returns on robots of ball joints. *)
From Verif Require Import Base Lin Mjx Typing Component Problem SpecComponent SpecJoint SpecHistory SpecMotion SpecConf Rot Conf FrameJac JaxComponents LocalIK Witness SpecTree SpecShape SpecValue SpecDeriv SpecQP SpecSolve SpecDescent SpecFit SpecProblem SpecDrift.
From Verif Require Import ConfCases DerivCases LogCases DriftCases CrossCases SlipCases BallSolve.
Open Scope R_scope.

(** On robots whose joints are all ball joints, an entry of a barrier that is zero does not
    fall with the velocity the solver returns.  Missing: robots that mix both kinds, where
    C128_limit_is_crossed_refuted shows that it can. *)
Theorem C128_solver_ball_joints_partial L os pi pd So q v0 s v j k i : let m := j_model j in tidy m os -> compiled_by os pi pd -> sound_lib L m -> List.length q = m_nq m -> wf_data m (update L m q) -> Forall (accepted L (update L m q)) (comps_of pd) ->
  exact_at L So m pd (update L m q) -> (exists w, admissible L (update L m q) pd w) -> solve L So m (tvec q) v0 pd = Ok (s, v) ->
  sound_jac (l_jacrev L) -> automatic j -> kinematic L j -> wf_joints m -> smooth L j k q -> In j (comps_of pd) -> jd_model pd = m -> is_barrier j = true -> j_gain_fn j 0 = 0 ->
  (i < k)%nat -> normalised m q -> d_qpos (update L m q) = q -> (forall l, ~ scalar_joint m l) -> (forall l, ~ free_joint m l) ->
  nth i (value_at L j q) 0 = 0 -> exists l, derivative_at_0 (fun t => nth i (value_after L j q v t) 0) l /\ 0 <= l.
Proof. exact (kept_balls L os pi pd So q v0 s v j k i). Qed.
Print Assumptions C128_solver_ball_joints_partial.
(** The stick of C128_ball_case with a solver. *)
Example C128_solver_ball_case D : sound_jac D -> shaped_jac D -> let L := joystick D in let m := chain [JBall] in let pd := side_pd JBall in let q := [1; 0; 0; 0] in let d := update L m q in let So := fun _ => mkSol [0; 0; 1] [] [] in
  tidy m (side_prog JBall) /\ compiled_by (side_prog JBall) 0 pd /\ sound_lib L m /\ wf_data m d /\ Forall (accepted L d) (comps_of pd) /\ exact_at L So m pd d /\ (exists w, admissible L d pd w) /\
  solve L So m (tvec q) [] pd = Ok (mkSol [0; 0; 1] [] [], [0; 0; 1]) /\ (forall i, ~ scalar_joint m i) /\ (forall i, ~ free_joint m i).
Proof. exact (side_stick D). Qed.
(** On the same robots an entry of a hard constraint that is zero stays zero to first order.
    Missing: robots that mix both kinds, see C129_constraint_slips_refuted. *)
Theorem C129_solver_ball_joints_partial L os pi pd So q v0 s v j k i : let m := j_model j in tidy m os -> compiled_by os pi pd -> sound_lib L m -> List.length q = m_nq m -> wf_data m (update L m q) -> Forall (accepted L (update L m q)) (comps_of pd) ->
  exact_at L So m pd (update L m q) -> (exists w, admissible L (update L m q) pd w) -> solve L So m (tvec q) v0 pd = Ok (s, v) ->
  sound_jac (l_jacrev L) -> automatic j -> kinematic L j -> wf_joints m -> smooth L j k q -> In j (comps_of pd) -> jd_model pd = m -> is_hard j = true -> j_gain_fn j 0 = 0 ->
  (i < k)%nat -> normalised m q -> d_qpos (update L m q) = q -> (forall l, ~ scalar_joint m l) -> (forall l, ~ free_joint m l) ->
  nth i (value_at L j q) 0 = 0 -> derivative_at_0 (fun t => nth i (value_after L j q v t) 0) 0.
Proof. exact (held_balls L os pi pd So q v0 s v j k i). Qed.
Print Assumptions C129_solver_ball_joints_partial.
(** The stick of C129_ball_case with a solver. *)
Example C129_solver_ball_case D : sound_jac D -> shaped_jac D -> let L := joystick D in let m := chain [JBall] in let pd := rod_pd JBall in let q := [1; 0; 0; 0] in let d := update L m q in let So := fun _ => mkSol [0; 0; 1] [] [] in
  tidy m (rod_prog JBall) /\ compiled_by (rod_prog JBall) 0 pd /\ sound_lib L m /\ wf_data m d /\ Forall (accepted L d) (comps_of pd) /\ exact_at L So m pd d /\ (exists w, admissible L d pd w) /\
  solve L So m (tvec q) [] pd = Ok (mkSol [0; 0; 1] [] [], [0; 0; 1]) /\ (forall i, ~ scalar_joint m i) /\ (forall i, ~ free_joint m i).
Proof. exact (rod_stick D). Qed.
