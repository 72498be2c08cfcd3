(** C129: does a hard constraint whose Jacobian is computed by differentiation hold what it holds? *)
From Verif Require Import Base Lin Mjx Typing Component Problem SpecComponent SpecJoint SpecHistory SpecMotion SpecConf Rot Conf FrameJac JaxComponents LocalIK Witness SpecTree SpecShape SpecValue SpecDeriv SpecQP SpecSolve SpecDescent SpecFit SpecProblem SpecDrift.
From Verif Require Import ConfCases DerivCases LogCases DriftCases SlipThms SlipCases.
Open Scope R_scope.

(** The crane and the task of C127, and a hard custom constraint that asks for the first
    coordinate of the tip to be zero, which it is.  Standing still is allowed.  With every
    best velocity, and with what every exact solver returns, it falls at rate 24/7. *)
Theorem C129_constraint_slips_refuted D : sound_jac D -> shaped_jac D -> exists L os pd j q W f, l_jacrev L = D /\ let m := j_model j in tidy m os /\ compiled_by os 0 pd /\ sound_lib L m /\ In j (comps_of pd) /\ j_ext j = JConstraint true true W (JCCustom f) /\ uniform 1 j /\
  List.length q = m_nq m /\ normalised m q /\ smooth L j 1 q /\ (forall y, List.length y = m_nq m -> value_at L j y = [vx (tip_of y)] /\ position (update L m y) OBody 2 = v3_list (tip_of y)) /\ value_at L j q = [0] /\ may_rest L (update L m q) pd /\
  (forall v, best L (update L m q) pd v -> derivative_at_0 (fun t => nth 0 (value_after L j q v t) 0) (- (24 / 7))) /\
  forall So v0, exact_at L So m pd (update L m q) -> exists s v, solve L So m (tvec q) v0 pd = Ok (s, v) /\ derivative_at_0 (fun t => nth 0 (value_after L j q v t) 0) (- (24 / 7)).
Proof. exact (slip_refuted D). Qed.
Print Assumptions C129_constraint_slips_refuted.
(** There is such a solver. *)
Example C129_solver_case D : sound_jac D -> shaped_jac D -> exact_at (crane D) (fun _ => mkSol [- (50 / 7); 0; 24 / 7; 0] [] []) rail slip_pd (update (crane D) rail up).
Proof. exact (slip_solver D). Qed.
(** What holds: on robots of hinge and slide joints an entry that is zero stays zero to first
    order, with any admissible velocity. *)
Theorem C129_scalar_joints_partial L pd j k q v : let m := j_model j in sound_jac (l_jacrev L) -> automatic j -> kinematic L j -> wf_joints m -> smooth L j k q -> List.length q = m_nq m ->
  In j (comps_of pd) -> jd_model pd = m -> is_hard j = true -> j_gain_fn j 0 = 0 -> admissible L (update L m q) pd v -> forall i, (i < k)%nat ->
  m_nq m = m_nv m -> keeps_scalars L m -> nth i (value_at L j q) 0 = 0 -> derivative_at_0 (fun t => nth i (value_after L j q v t) 0) 0.
Proof. exact (held_scalar L pd j k q v). Qed.
Print Assumptions C129_scalar_joints_partial.
(** The same for an admissible velocity that only turns ball and free joints. *)
Theorem C129_turning_partial L pd j k q v : let m := j_model j in sound_jac (l_jacrev L) -> automatic j -> kinematic L j -> wf_joints m -> smooth L j k q -> List.length q = m_nq m ->
  In j (comps_of pd) -> jd_model pd = m -> is_hard j = true -> j_gain_fn j 0 = 0 -> admissible L (update L m q) pd v -> forall i, (i < k)%nat ->
  normalised m q -> d_qpos (update L m q) = q -> only_turns m v -> nth i (value_at L j q) 0 = 0 -> derivative_at_0 (fun t => nth i (value_after L j q v t) 0) 0.
Proof. exact (held_turning L pd j k q v). Qed.
Print Assumptions C129_turning_partial.
(** The same for what the solver returns on robots of hinge and slide joints. *)
Theorem C129_solver_scalar_joints_partial L os pi pd So q v0 s v j k i : let m := j_model j in tidy m os -> compiled_by os pi pd -> sound_lib L m -> List.length q = m_nq m -> wf_data m (update L m q) -> Forall (accepted L (update L m q)) (comps_of pd) ->
  exact_at L So m pd (update L m q) -> (exists w, admissible L (update L m q) pd w) -> solve L So m (tvec q) v0 pd = Ok (s, v) ->
  sound_jac (l_jacrev L) -> automatic j -> kinematic L j -> wf_joints m -> smooth L j k q -> In j (comps_of pd) -> jd_model pd = m -> is_hard j = true -> j_gain_fn j 0 = 0 ->
  (i < k)%nat -> m_nq m = m_nv m -> keeps_scalars L m -> nth i (value_at L j q) 0 = 0 -> derivative_at_0 (fun t => nth i (value_after L j q v t) 0) 0.
Proof. exact (held_solver L os pi pd So q v0 s v j k i). Qed.
Print Assumptions C129_solver_scalar_joints_partial.
(** A hinge with a body at (1, 0, 0) whose first coordinate is to be one, turning at rate 1. *)
Example C129_hinge_case D : sound_jac D -> let L := crank D in let j := rod JHinge in let m := j_model j in let pd := rod_pd JHinge in
  compiled_by (rod_prog JHinge) 0 pd /\ automatic j /\ kinematic L j /\ wf_joints m /\ smooth L j 1 [0] /\ In j (comps_of pd) /\ jd_model pd = m /\ is_hard j = true /\ j_gain_fn j 0 = 0 /\ admissible L (update L m [0]) pd [1] /\
  m_nq m = m_nv m /\ keeps_scalars L m /\ nth 0 (value_at L j [0]) 0 = 0.
Proof. exact (hinge_rod D). Qed.
(** The same with a solver. *)
Example C129_solver_hinge_case D : sound_jac D -> shaped_jac D -> let L := crank D in let m := chain [JHinge] in let pd := rod_pd JHinge in let d := update L m [0] in let So := fun _ => mkSol [1] [] [] in
  tidy m (rod_prog JHinge) /\ compiled_by (rod_prog JHinge) 0 pd /\ sound_lib L m /\ wf_data m d /\ Forall (accepted L d) (comps_of pd) /\ exact_at L So m pd d /\ (exists w, admissible L d pd w) /\
  solve L So m (tvec [0]) [] pd = Ok (mkSol [1] [] [], [1]).
Proof. exact (rod_solver D). Qed.
(** The same body on a ball joint. *)
Example C129_ball_case D : sound_jac D -> let L := joystick D in let j := rod JBall in let m := j_model j in let pd := rod_pd JBall in let q := [1; 0; 0; 0] in
  compiled_by (rod_prog JBall) 0 pd /\ automatic j /\ kinematic L j /\ wf_joints m /\ smooth L j 1 q /\ In j (comps_of pd) /\ jd_model pd = m /\ is_hard j = true /\ j_gain_fn j 0 = 0 /\ admissible L (update L m q) pd [0; 0; 1] /\
  normalised m q /\ d_qpos (update L m q) = q /\ only_turns m [0; 0; 1] /\ nth 0 (value_at L j q) 0 = 0.
Proof. exact (ball_rod D). Qed.
