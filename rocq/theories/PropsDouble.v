(** C127, C128, C129 on every robot, for another motion: the components with automatic
    Jacobians do what is asked when the robot moves with the returned velocity in which the
    turning of ball and free joints is doubled.  Missing: the motion with the returned
    velocity itself, for which the refutations in PropsDrift.v, PropsCross.v and PropsSlip.v
    give counterexamples. *)
From Verif Require Import Base Lin Mjx Typing Component Problem SpecComponent SpecJoint SpecHistory SpecMotion SpecConf Rot Conf FrameJac JaxComponents LocalIK Witness SpecTree SpecShape SpecValue SpecDeriv SpecQP SpecSolve SpecDescent SpecFit SpecProblem SpecDrift.
From Verif Require Import ConfCases DerivCases LogCases DriftCases CrossCases SlipCases DoubleThms DoubleCases.
Open Scope R_scope.

(** The weighted squared error of a lone task does not grow. *)
Theorem C127_doubled_turning_partial L os pi pd So q v0 v w s j k g : let m := j_model j in tidy m os -> compiled_by os pi pd -> sound_lib L m -> List.length q = m_nq m -> wf_data m (update L m q) -> Forall (accepted L (update L m q)) (comps_of pd) ->
  exact_at L So m pd (update L m q) -> solve L So m (tvec q) v0 pd = Ok (s, v) -> sound_jac (l_jacrev L) -> automatic j -> kinematic L j -> wf_joints m -> smooth L j k q ->
  In j (comps_of pd) -> jd_model pd = m -> normalised m q -> d_qpos (update L m q) = q -> turns_twice m v w ->
  comps_of pd = [j] -> seeks j = true -> uniform g j -> nonneg_weights j -> List.length (j_gain j) = k -> admissible L (update L m q) pd (vzero (m_nv m)) ->
  exists l, derivative_at_0 (fun t => g / 2 * sq (mv (weight_of j) (value_after L j q w t))) l /\ l <= 0.
Proof. exact (fun Ht Hc HL Hq Hd Ha HS E HD Hj Hk Hw Hs Hi Em Hn Hdq Tw => double_lone L os pi pd So q v0 v w s j k Ht Hc HL Hq Hd Ha HS E HD Hj Hk Hw Hs Hi Em Hn Hdq Tw g). Qed.
Print Assumptions C127_doubled_turning_partial.
Example C127_doubled_turning_case D : sound_jac D -> shaped_jac D -> crane_run D drift_prog drift_pd [- (50 / 7); 0; 38 / 7; 0] /\ turns_twice rail [- (50 / 7); 0; 38 / 7; 0] [- (50 / 7); 2 * 0; 2 * (38 / 7); 2 * 0] /\
  comps_of drift_pd = [reach] /\ j_model reach = rail /\ automatic reach /\ kinematic (crane D) reach /\ smooth (crane D) reach 3 up /\ seeks reach = true /\ uniform 2 reach /\ nonneg_weights reach /\ List.length (j_gain reach) = 3%nat /\
  admissible (crane D) (update (crane D) rail up) drift_pd (vzero 4).
Proof. exact (drift_double D). Qed.
(** An entry of a barrier that is zero does not fall. *)
Theorem C128_doubled_turning_partial L os pi pd So q v0 v w s j k i : let m := j_model j in tidy m os -> compiled_by os pi pd -> sound_lib L m -> List.length q = m_nq m -> wf_data m (update L m q) -> Forall (accepted L (update L m q)) (comps_of pd) ->
  exact_at L So m pd (update L m q) -> solve L So m (tvec q) v0 pd = Ok (s, v) -> sound_jac (l_jacrev L) -> automatic j -> kinematic L j -> wf_joints m -> smooth L j k q ->
  In j (comps_of pd) -> jd_model pd = m -> normalised m q -> d_qpos (update L m q) = q -> turns_twice m v w ->
  (exists u, admissible L (update L m q) pd u) -> is_barrier j = true -> j_gain_fn j 0 = 0 -> (i < k)%nat -> nth i (value_at L j q) 0 = 0 ->
  exists l, derivative_at_0 (fun t => nth i (value_after L j q w t) 0) l /\ 0 <= l.
Proof. exact (fun Ht Hc HL Hq Hd Ha HS E HD Hj Hk Hw Hs Hi Em Hn Hdq Tw => double_kept L os pi pd So q v0 v w s j k Ht Hc HL Hq Hd Ha HS E HD Hj Hk Hw Hs Hi Em Hn Hdq Tw i). Qed.
Print Assumptions C128_doubled_turning_partial.
Example C128_doubled_turning_case D : sound_jac D -> shaped_jac D -> crane_run D cross_prog cross_pd [- (50 / 7); 0; 38 / 7; 0] /\ turns_twice rail [- (50 / 7); 0; 38 / 7; 0] [- (50 / 7); 2 * 0; 2 * (38 / 7); 2 * 0] /\
  In fence (comps_of cross_pd) /\ j_model fence = rail /\ automatic fence /\ kinematic (crane D) fence /\ smooth (crane D) fence 1 up /\ is_barrier fence = true /\ j_gain_fn fence 0 = 0 /\ nth 0 (value_at (crane D) fence up) 0 = 0.
Proof. exact (cross_double D). Qed.
(** An entry of a hard constraint that is zero stays zero to first order. *)
Theorem C129_doubled_turning_partial L os pi pd So q v0 v w s j k i : let m := j_model j in tidy m os -> compiled_by os pi pd -> sound_lib L m -> List.length q = m_nq m -> wf_data m (update L m q) -> Forall (accepted L (update L m q)) (comps_of pd) ->
  exact_at L So m pd (update L m q) -> solve L So m (tvec q) v0 pd = Ok (s, v) -> sound_jac (l_jacrev L) -> automatic j -> kinematic L j -> wf_joints m -> smooth L j k q ->
  In j (comps_of pd) -> jd_model pd = m -> normalised m q -> d_qpos (update L m q) = q -> turns_twice m v w ->
  (exists u, admissible L (update L m q) pd u) -> is_hard j = true -> j_gain_fn j 0 = 0 -> (i < k)%nat -> nth i (value_at L j q) 0 = 0 ->
  derivative_at_0 (fun t => nth i (value_after L j q w t) 0) 0.
Proof. exact (fun Ht Hc HL Hq Hd Ha HS E HD Hj Hk Hw Hs Hi Em Hn Hdq Tw => double_held L os pi pd So q v0 v w s j k Ht Hc HL Hq Hd Ha HS E HD Hj Hk Hw Hs Hi Em Hn Hdq Tw i). Qed.
Print Assumptions C129_doubled_turning_partial.
Example C129_doubled_turning_case D : sound_jac D -> shaped_jac D -> crane_run D slip_prog slip_pd [- (50 / 7); 0; 24 / 7; 0] /\ turns_twice rail [- (50 / 7); 0; 24 / 7; 0] [- (50 / 7); 2 * 0; 2 * (24 / 7); 2 * 0] /\
  In tie (comps_of slip_pd) /\ j_model tie = rail /\ automatic tie /\ kinematic (crane D) tie /\ smooth (crane D) tie 1 up /\ is_hard tie = true /\ j_gain_fn tie 0 = 0 /\ nth 0 (value_at (crane D) tie up) 0 = 0.
Proof. exact (slip_double D). Qed.
