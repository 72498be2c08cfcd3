(** Properties: the global IK solver. *)
From Verif Require Import Base Lin Mjx Typing Component Problem SpecComponent SpecJoint SpecProblem SpecShape Witness Conf JaxComponents LocalIK GlobalIK SpecQP SpecFit SpecGlobal QPCases MotionCases FitCases.
From Verif Require Import GlobalFacts GlobalFacts2 GlobalCases FromData.
Open Scope R_scope.

(** ** C55 *)
Theorem C55_loss_is_the_sum_of_contributions L q pd xs : contributions L (update L (jd_model pd) q) pd xs -> loss_fn L q pd = Ok (total_of xs).
Proof. exact (loss_value L q pd xs). Qed.
Print Assumptions C55_loss_is_the_sum_of_contributions.
Theorem C55_programs_have_a_loss L m os pi pd q : tidy m os -> compiled_by os pi pd -> sound_lib L m ->
  let d := update L m q in wf_data m d -> Forall (accepted L d) (comps_of pd) -> Forall (fun j => is_constraint j = false) (comps_of pd) ->
  exists xs, contributions L d pd xs /\ loss_fn L q pd = Ok (total_of xs).
Proof. exact (program_loss L m os pi pd q). Qed.
Print Assumptions C55_programs_have_a_loss.
Theorem C55_loss_nonneg L q pd xs : contributions L (update L (jd_model pd) q) pd xs -> Forall nonneg_gain (comps_of pd) -> exists y, loss_fn L q pd = Ok y /\ 0 <= y.
Proof. exact (fun H F => ex_intro _ _ (conj (loss_value L q pd xs H) (total_nonneg xs (loss_nonneg L _ pd xs H F)))). Qed.
Print Assumptions C55_loss_nonneg.
Theorem C55_loss_zero_iff L q pd xs : let d := update L (jd_model pd) q in contributions L d pd xs -> Forall nonneg_gain (comps_of pd) ->
  (loss_fn L q pd = Ok 0 <-> Forall (content L d) (comps_of pd)).
Proof. exact (loss_zero L q pd xs). Qed.
Print Assumptions C55_loss_zero_iff.
Theorem C55_barrier_antitone L d d' j e e' x x' : is_barrier j = true -> nonneg_gain j -> call L j d = Ok e -> call L j d' = Ok e' -> Forall2 Rle e e' ->
  contributes L d j x -> contributes L d' j x' -> x' <= x.
Proof. exact (contribution_antitone L d d' j e e' x x'). Qed.
Print Assumptions C55_barrier_antitone.
Theorem C55_constraints_rejected L q pd js1 n j js2 xs : jd_comps pd = js1 ++ (n, j) :: js2 -> Forall2 (contributes L (update L (jd_model pd) q)) (map snd js1) xs ->
  is_constraint j = true -> loss_fn L q pd = Err NotImplementedError.
Proof. exact (loss_constraint L q pd js1 n j js2 xs). Qed.
Print Assumptions C55_constraints_rejected.
Example C55_case : tidy one far_prog /\ compiled_by far_prog 0 far_pd /\ sound_lib even_lib one /\ Forall (fun j => is_constraint j = false) (comps_of far_pd) /\ Forall nonneg_gain (comps_of far_pd) /\
  forall x, wf_data one (update even_lib one [x]) /\ Forall (accepted even_lib (update even_lib one [x])) (comps_of far_pd) /\
    loss_fn even_lib [x] far_pd = Ok (square (x - 10) + (penalty (x - -1) + penalty (1 - x))).
Proof.
  split; [exact far_tidy|]. split; [exact far_compiled|]. split; [apply even_sound|]. split; [repeat constructor|]. split; [repeat (constructor; try lra)|]. intros x.
  split; [now apply far_accepted|]. split; [now apply far_accepted|]. apply far_loss.
Qed.
Example C55_constraint_case : exists q js1 n j js2, jd_comps qp_demo = js1 ++ (n, j) :: js2 /\ List.length js1 = 2%nat /\ is_constraint j = true /\
  exists xs, Forall2 (contributes even_lib (update even_lib (jd_model qp_demo) q)) (map snd js1) xs.
Proof.
  exists [1 / 2; 1 / 4], (firstn 2 (jd_comps qp_demo)). do 3 eexists. split; [reflexivity|]. split; [reflexivity|]. split; [reflexivity|].
  eexists. constructor; [eexists; repeat split; vm_compute; reflexivity|]. constructor; [eexists; repeat split; vm_compute; reflexivity|constructor].
Qed.

(** ** C56.  False: two problems that differ only in costs, damping and gain functions
    have the same loss everywhere.  Gains do act as weights. *)
Theorem C56_costs_and_gain_functions_ignored_refuted L q pd pd' : jd_model pd = jd_model pd' ->
  Forall2 (fun a b => same_but_cost (snd a) (snd b)) (jd_comps pd) (jd_comps pd') -> loss_fn L q pd = loss_fn L q pd'.
Proof. exact (same_loss L q pd pd'). Qed.
Print Assumptions C56_costs_and_gain_functions_ignored_refuted.
Theorem C56_gains_are_weights_partial L d j j' k x : is_barrier j = is_barrier j' -> is_constraint j = is_constraint j' -> call L j d = call L j' d -> j_gain j' = map (Rmult k) (j_gain j) ->
  contributes L d j x -> contributes L d j' (k * x).
Proof. exact (contribution_scale L d j j' k x). Qed.
Print Assumptions C56_gains_are_weights_partial.
Example C56_case : compiled_by far_prog 0 far_pd /\ dear_prog = far_prog ++ [WCop 0 (OpCost (tscalar 7))] /\ compiled_by dear_prog 0 dear_pd /\
  jd_model far_pd = jd_model dear_pd /\ Forall2 (fun a b => same_but_cost (snd a) (snd b)) (jd_comps far_pd) (jd_comps dear_pd) /\
  exists j j' lm k, hd_error (comps_of far_pd) = Some j /\ hd_error (comps_of dear_pd) = Some j' /\ j_ext j = JTask [[2]] lm k /\ j_ext j' = JTask [[7]] lm k.
Proof. split; [exact far_compiled|]. split; [reflexivity|]. split; [exact dear_compiled|]. split; [apply dear_same|]. split; [apply dear_same|exact dear_differs]. Qed.

(** ** C57.  The penalty does push inside (10^-9, 1) ... *)
Theorem C57_penalty_between_partial x : 1 / 10 ^ 9 < x < 1 -> derivable_pt_lim penalty x (- / x) /\ forall y, x < y -> penalty y < penalty x.
Proof.
  exact (fun H => conj (penalty_derivative x H) (fun y Hy => match Rle_dec y 1 with
    | left h => penalty_strict x y (Rlt_le _ _ (proj1 H)) Hy h
    | right h => Rle_lt_trans _ _ _ (penalty_antitone 1 y (Rlt_le _ _ (Rnot_le_lt _ _ h))) (penalty_strict x 1 (Rlt_le _ _ (proj1 H)) (proj2 H) (Rle_refl 1))
    end)).
Qed.
Print Assumptions C57_penalty_between_partial.
(** ... but it is bounded, constant below 10^-9, ... *)
Theorem C57_penalty_bounded_refuted L d j x : is_barrier j = true -> nonneg_gain j -> contributes L d j x -> x <= 9 * ln 10 * total_of (j_gain j).
Proof. exact (barrier_bound L d j x). Qed.
Print Assumptions C57_penalty_bounded_refuted.
Theorem C57_penalty_flat_refuted x y : x <= 1 / 10 ^ 9 -> y <= 1 / 10 ^ 9 -> penalty x = penalty y /\ (x < 1 / 10 ^ 9 -> derivable_pt_lim penalty x 0).
Proof. exact (fun Hx Hy => conj (penalty_flat x y Hx Hy) (penalty_derivative_flat x)). Qed.
Print Assumptions C57_penalty_flat_refuted.
(** ... so that gradient descent started outside the joint limits stays there forever, ... *)
Theorem C57_no_push_back_refuted : exists os pd, compiled_by os 0 pd /\ call even_lib lim1_j (update even_lib one [5]) = Ok [5 - -1; 1 - 5] /\ comps_of pd = [lim1_j] /\
  forall grad, sound_grad grad -> forall r st, gsolve even_lib grad (descent r) one 1 (tvec [5]) st pd = Ok ([5], [0], st).
Proof. exact (ex_intro _ lim1_prog (ex_intro _ lim1_pd (conj (proj1 lim1_case) (conj eq_refl (conj eq_refl lim1_stuck))))). Qed.
Print Assumptions C57_no_push_back_refuted.
(** ... and a configuration outside the limits may beat every one inside. *)
Theorem C57_minimum_outside_limits_refuted : exists os pd y, compiled_by os 0 pd /\ loss_fn even_lib [10] pd = Ok y /\
  (exists lo hi, call even_lib lim1_j (update even_lib one [10]) = Ok [lo; hi] /\ hi < 0) /\ In lim1_j (comps_of pd) /\
  forall x z, -1 <= x <= 1 -> loss_fn even_lib [x] pd = Ok z -> y < z.
Proof. exact far_outside. Qed.
Print Assumptions C57_minimum_outside_limits_refuted.
Example C57_case : exists grad, sound_grad grad /\ grad_keeps_length grad.
Proof. exact (ex_intro _ true_grad (conj true_grad_sound true_grad_length)). Qed.

(** ** C58.  True for robots with hinge and slide joints only. *)
Theorem C58_solution_consistent_partial L grad O sm dt x st pd q' v st' : wf_joints sm -> Forall (fun t => is_scalar t = true) (m_jnt_type sm) -> dt <> 0 ->
  List.length x = m_nq sm -> grad_keeps_length grad -> step_keeps_length O -> gsolve L grad O sm dt (tvec x) st pd = Ok (q', v, st') ->
  List.length v = m_nv sm /\ integrate sm x v dt = Ok q'.
Proof. exact (solution_consistent L grad O sm dt x st pd q' v st'). Qed.
Print Assumptions C58_solution_consistent_partial.
Theorem C58_wrong_shape_rejected L grad O sm dt q st pd : t_shape q <> [m_nq sm] -> gsolve L grad O sm dt q st pd = Err ValueError /\ ginit O sm q = Err ValueError.
Proof. exact (fun H => conj (gsolve_shape L grad O sm dt q st pd H) (ginit_shape O sm q H)). Qed.
Print Assumptions C58_wrong_shape_rejected.
(** The velocity always has length nq, not nv ... *)
Theorem C58_velocity_has_length_nq_refuted L grad O sm dt x st pd q' v st' : List.length x = m_nq sm -> grad_keeps_length grad -> step_keeps_length O ->
  gsolve L grad O sm dt (tvec x) st pd = Ok (q', v, st') -> List.length v = m_nq sm.
Proof. exact (fun Hx Hg Ho H => proj1 (solution_lengths L grad O sm dt x st pd q' v st' Hx Hg Ho H)). Qed.
Print Assumptions C58_velocity_has_length_nq_refuted.
(** ... and with a ball joint the resulting quaternion need not have norm 1. *)
Theorem C58_unit_quaternion_lost_refuted : exists os pd, compiled_by os 0 pd /\ jd_model pd = ball /\
  forall grad, sound_grad grad -> forall st, gsolve even_lib grad (descent 1) ball 1 (tvec [1; 0; 0; 0]) st pd = Ok ([1; 1; 0; 0], [0; 1; 0; 0], st).
Proof. exact (ex_intro _ tilt_prog (ex_intro _ tilt_pd (conj tilt_compiled (conj eq_refl tilt_step)))). Qed.
Print Assumptions C58_unit_quaternion_lost_refuted.
Example C58_case : wf_joints one /\ Forall (fun t => is_scalar t = true) (m_jnt_type one) /\ m_nq ball = 4%nat /\ m_nv ball = 3%nat /\ step_keeps_length (descent 1) /\ grad_keeps_length true_grad /\
  gsolve even_lib true_grad (descent 1) one 1 (tvec [5]) tt lim1_pd = Ok ([5], [0], tt).
Proof.
  split; [apply chain_joints|]. split; [repeat constructor|]. split; [reflexivity|]. split; [reflexivity|]. split; [intros g st; apply map_length|]. split; [exact true_grad_length|]. now apply lim1_stuck, true_grad_sound.
Qed.
(** Starting from kinematic data: only the configuration in the data matters, everything else is
    computed afresh; the step is that of [solve] at this configuration, and the returned velocity
    is the change of the configuration divided by the solver's time step. *)
Theorem C58_from_data L grad O sm dt st pd d q' v st' : dt <> 0 -> List.length (d_qpos d) = m_nq sm -> grad_keeps_length grad -> step_keeps_length O ->
  gsolve_from_data L grad O sm dt st pd d = Ok (q', v, st') ->
  List.length v = m_nq sm /\ q' = vadd (d_qpos d) (vscale dt v) /\ gsolve L grad O sm dt (tvec (d_qpos d)) st pd = Ok (q', v, st').
Proof. exact (from_data_ok L grad O sm dt st pd d q' v st'). Qed.
Print Assumptions C58_from_data.
Theorem C58_from_data_configuration_only L grad O sm dt st pd d d' : d_qpos d' = d_qpos d ->
  gsolve_from_data L grad O sm dt st pd d' = gsolve_from_data L grad O sm dt st pd d.
Proof. exact (from_data_same L grad O sm dt st pd d d'). Qed.
Print Assumptions C58_from_data_configuration_only.
Theorem C58_from_data_wrong_length L grad O sm dt st pd d : List.length (d_qpos d) <> m_nq sm -> gsolve_from_data L grad O sm dt st pd d = Err ValueError.
Proof. exact (from_data_len L grad O sm dt st pd d). Qed.
Print Assumptions C58_from_data_wrong_length.
(** The local solver: solving at a configuration is solving from the kinematics there, whatever
    the solver data. *)
Theorem C58_local_from_data L S sm q v v' pd : List.length q = m_nq sm -> solve L S sm (tvec q) v pd = solve_from_data L S sm v' pd (update L sm q).
Proof. exact (local_from_data L S sm q v v' pd). Qed.
Print Assumptions C58_local_from_data.
Example C58_from_data_case : gsolve_from_data even_lib true_grad (descent 1) one 1 tt lim1_pd (update even_lib one [5]) = Ok ([5], [0], tt) /\
  List.length (d_qpos (update even_lib one [5])) = m_nq one.
Proof. split; [|reflexivity]. unfold gsolve_from_data. change (d_qpos (update even_lib one [5])) with [5]. now apply lim1_stuck, true_grad_sound. Qed.
