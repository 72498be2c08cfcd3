(** C128: does a barrier whose Jacobian is computed by differentiation keep its limit? *)
From Verif Require Import Base Lin Mjx Typing Component Problem SpecComponent SpecJoint SpecHistory SpecMotion SpecConf Rot Conf FrameJac JaxComponents LocalIK Witness SpecTree SpecShape SpecValue SpecDeriv SpecQP SpecSolve SpecDescent SpecFit SpecProblem SpecDrift.
From Verif Require Import ConfCases DerivCases LogCases DriftCases CrossThms CrossCases.
Open Scope R_scope.

(** The crane and the task of C127, and a barrier for the first coordinate of the tip, which
    is exactly at its lower limit 0.  Standing still is allowed.  With every best velocity,
    and with what every exact solver returns, the coordinate falls at rate 10/7. *)
Theorem C128_limit_is_crossed_refuted D : sound_jac D -> shaped_jac D -> exists L os pd j q, l_jacrev L = D /\ let m := j_model j in tidy m os /\ compiled_by os 0 pd /\ sound_lib L m /\ In j (comps_of pd) /\ position_barrier (Some (mvec [1; 0; 0]%Z)) "tip" OBody "min" j /\ uniform 1 j /\
  List.length q = m_nq m /\ normalised m q /\ smooth L j 1 q /\ (forall y, List.length y = m_nq m -> value_at L j y = [vx (tip_of y) - 0] /\ position (update L m y) OBody 2 = v3_list (tip_of y)) /\ value_at L j q = [0] /\ may_rest L (update L m q) pd /\
  (forall v, best L (update L m q) pd v -> derivative_at_0 (fun t => nth 0 (value_after L j q v t) 0) (- (10 / 7))) /\
  forall So v0, exact_at L So m pd (update L m q) -> exists s v, solve L So m (tvec q) v0 pd = Ok (s, v) /\ derivative_at_0 (fun t => nth 0 (value_after L j q v t) 0) (- (10 / 7)).
Proof. exact (cross_refuted D). Qed.
Print Assumptions C128_limit_is_crossed_refuted.
(** There is such a solver. *)
Example C128_solver_case D : sound_jac D -> shaped_jac D -> exact_at (crane D) (fun _ => mkSol [- (50 / 7); 0; 38 / 7; 0] [] []) rail cross_pd (update (crane D) rail up).
Proof. exact (cross_solver D). Qed.
(** What holds: on robots of hinge and slide joints an entry that is zero does not fall, with
    any admissible velocity. *)
Theorem C128_scalar_joints_partial L pd j k q v : let m := j_model j in sound_jac (l_jacrev L) -> automatic j -> kinematic L j -> wf_joints m -> smooth L j k q -> List.length q = m_nq m ->
  In j (comps_of pd) -> jd_model pd = m -> is_barrier j = true -> j_gain_fn j 0 = 0 -> admissible L (update L m q) pd v -> forall i, (i < k)%nat ->
  m_nq m = m_nv m -> keeps_scalars L m -> nth i (value_at L j q) 0 = 0 -> exists l, derivative_at_0 (fun t => nth i (value_after L j q v t) 0) l /\ 0 <= l.
Proof. exact (kept_scalar L pd j k q v). Qed.
Print Assumptions C128_scalar_joints_partial.
(** The same for an admissible velocity that only turns ball and free joints. *)
Theorem C128_turning_partial L pd j k q v : let m := j_model j in sound_jac (l_jacrev L) -> automatic j -> kinematic L j -> wf_joints m -> smooth L j k q -> List.length q = m_nq m ->
  In j (comps_of pd) -> jd_model pd = m -> is_barrier j = true -> j_gain_fn j 0 = 0 -> admissible L (update L m q) pd v -> forall i, (i < k)%nat ->
  normalised m q -> d_qpos (update L m q) = q -> only_turns m v -> nth i (value_at L j q) 0 = 0 -> exists l, derivative_at_0 (fun t => nth i (value_after L j q v t) 0) l /\ 0 <= l.
Proof. exact (kept_turning L pd j k q v). Qed.
Print Assumptions C128_turning_partial.
(** The same for what the solver returns on robots of hinge and slide joints. *)
Theorem C128_solver_scalar_joints_partial L os pi pd So q v0 s v j k i : let m := j_model j in tidy m os -> compiled_by os pi pd -> sound_lib L m -> List.length q = m_nq m -> wf_data m (update L m q) -> Forall (accepted L (update L m q)) (comps_of pd) ->
  exact_at L So m pd (update L m q) -> (exists w, admissible L (update L m q) pd w) -> solve L So m (tvec q) v0 pd = Ok (s, v) ->
  sound_jac (l_jacrev L) -> automatic j -> kinematic L j -> wf_joints m -> smooth L j k q -> In j (comps_of pd) -> jd_model pd = m -> is_barrier j = true -> j_gain_fn j 0 = 0 ->
  (i < k)%nat -> m_nq m = m_nv m -> keeps_scalars L m -> nth i (value_at L j q) 0 = 0 -> exists l, derivative_at_0 (fun t => nth i (value_after L j q v t) 0) l /\ 0 <= l.
Proof. exact (kept_solver L os pi pd So q v0 s v j k i). Qed.
Print Assumptions C128_solver_scalar_joints_partial.
(** A hinge with a body at (1, 0, 0) whose second coordinate is not to become negative. *)
Example C128_hinge_case D : sound_jac D -> let L := crank D in let j := side JHinge in let m := j_model j in let pd := side_pd JHinge in
  compiled_by (side_prog JHinge) 0 pd /\ automatic j /\ kinematic L j /\ wf_joints m /\ smooth L j 1 [0] /\ In j (comps_of pd) /\ jd_model pd = m /\ is_barrier j = true /\ j_gain_fn j 0 = 0 /\ admissible L (update L m [0]) pd [1] /\
  m_nq m = m_nv m /\ keeps_scalars L m /\ nth 0 (value_at L j [0]) 0 = 0.
Proof. exact (hinge_side D). Qed.
(** The same with a solver. *)
Example C128_solver_hinge_case D : sound_jac D -> shaped_jac D -> let L := crank D in let m := chain [JHinge] in let pd := side_pd JHinge in let d := update L m [0] in let So := fun _ => mkSol [1] [] [] in
  tidy m (side_prog JHinge) /\ compiled_by (side_prog JHinge) 0 pd /\ sound_lib L m /\ wf_data m d /\ Forall (accepted L d) (comps_of pd) /\ exact_at L So m pd d /\ (exists w, admissible L d pd w) /\
  solve L So m (tvec [0]) [] pd = Ok (mkSol [1] [] [], [1]).
Proof. exact (side_solver D). Qed.
(** The same body on a ball joint. *)
Example C128_ball_case D : sound_jac D -> let L := joystick D in let j := side JBall in let m := j_model j in let pd := side_pd JBall in let q := [1; 0; 0; 0] in
  compiled_by (side_prog JBall) 0 pd /\ automatic j /\ kinematic L j /\ wf_joints m /\ smooth L j 1 q /\ In j (comps_of pd) /\ jd_model pd = m /\ is_barrier j = true /\ j_gain_fn j 0 = 0 /\ admissible L (update L m q) pd [0; 0; 1] /\
  normalised m q /\ d_qpos (update L m q) = q /\ only_turns m [0; 0; 1] /\ nth 0 (value_at L j q) 0 = 0.
Proof. exact (ball_side D). Qed.
