(** C117: what a finite time step costs. *)
From Verif Require Import Base Lin LinFacts Mjx Typing Component Problem SpecComponent SpecJoint SpecHistory SpecProblem SpecConf SpecShape SpecFit SpecValue Conf JaxComponents LocalIK SpecQP SpecMotion SpecSolve SpecClosed SpecDescent SpecDeriv SpecTol SpecStep.
From Verif Require Import ConfCases ValueCases MotionCases FitFacts FitCases QPCases DerivThms2 DescentCases StepFacts StepThms StepCases.
Open Scope R_scope.

(** The conditions of the problem speak of rates at the start of a step, and the velocity is then
    held for the time dt.  If the values accelerate by at most [M] meanwhile, then after k steps
    a barrier keeps the share r = (1 - gain dt)^k of its value up to (1 - r) (eps + M dt / 2) / gain,
    and a hard constraint has lost all but that share of its error, up to the same amount. *)
Theorem C117_values_after_steps L m os pi pd j eps M dt (q v : nat -> vec) ds :
  (forall k : nat, tidy m (os k) /\ compiled_by (os k) (pi k) (pd k) /\ In j (comps_of (pd k)) /\ wf_data m (update L m (q k)) /\ Forall (accepted L (update L m (q k))) (comps_of (pd k))) -> sound_lib L m ->
  (forall x, j_gain_fn j x = x) -> 0 < dt -> Forall (fun a => 0 < a /\ a * dt <= 1) (j_gain j) -> sampled_loop eps M L m pd dt q v ds j ->
  exists h : nat -> vec, (forall k, call L j (update L m (q k)) = Ok (h k) /\ List.length (h k) = List.length (j_gain j)) /\
  forall k i, (i < List.length (j_gain j))%nat -> let a := nth i (j_gain j) 0 in let r := (1 - a * dt) ^ k in let c := (eps + M * dt / 2) / a in
    (is_barrier j = true -> r * nth i (h 0%nat) 0 - (1 - r) * c <= nth i (h k) 0) /\
    (is_hard j = true -> Rabs (nth i (h k) 0 - r * nth i (h 0%nat) 0) <= (1 - r) * c).
Proof. exact (held_loop L m os pi pd j eps M dt q v ds). Qed.
Print Assumptions C117_values_after_steps.

(** However long the loop runs, a barrier is violated by no more than (eps + M dt / 2) / gain. *)
Theorem C117_violation_for_ever L m os pi pd j eps M dt g (q v : nat -> vec) ds :
  (forall k : nat, tidy m (os k) /\ compiled_by (os k) (pi k) (pd k) /\ In j (comps_of (pd k)) /\ wf_data m (update L m (q k)) /\ Forall (accepted L (update L m (q k))) (comps_of (pd k))) -> sound_lib L m ->
  is_barrier j = true -> (forall x, j_gain_fn j x = x) -> 0 < dt -> 0 < g -> 0 <= eps -> 0 <= M -> Forall (fun a => g <= a /\ a * dt <= 1) (j_gain j) -> sampled_loop eps M L m pd dt q v ds j ->
  let w := (eps + M * dt / 2) / g in (forall e, call L j (update L m (q 0%nat)) = Ok e -> Forall (fun x => - w <= x) e) -> forall k e, call L j (update L m (q k)) = Ok e -> Forall (fun x => - w <= x) e.
Proof. exact (held_for_ever L m os pi pd j eps M dt g q v ds). Qed.
Print Assumptions C117_violation_for_ever.
(** A crank swings to and fro for ever. Its tip starts on a wall, every velocity meets the
    conditions exactly, and at every other step the tip is beyond the wall. *)
Example C117_violation_case : (forall k, tidy hinge rail_prog /\ compiled_by rail_prog 0 rail_pd /\ In rail (comps_of rail_pd) /\ wf_data hinge (update tick hinge (swing_q k)) /\ Forall (accepted tick (update tick hinge (swing_q k))) (comps_of rail_pd)) /\
  sound_lib tick hinge /\ is_barrier rail = true /\ (forall x, j_gain_fn rail x = x) /\ Forall (fun a => 1 <= a /\ a * (1 / 2) <= 1) (j_gain rail) /\ sampled_loop 0 1 tick hinge (fun _ => rail_pd) (1 / 2) swing_q swing_v swing_d rail /\
  (forall e, call tick rail (update tick hinge (swing_q 0)) = Ok e -> Forall (fun x => 0 <= x) e) /\ forall k, exists e, call tick rail (update tick hinge (swing_q (2 * k + 1))) = Ok e /\ nth 0 e 0 < 0.
Proof.
  split; [exact swing_ready|]. split; [exact tick_sound|]. split; [reflexivity|]. split; [reflexivity|]. split; [change (j_gain rail) with [1; 1; 1]; repeat constructor; lra|]. split; [exact swing_loop|]. split; [|exact swing_outside].
  intros e He. rewrite rail_value in He. injection He as <-. cbn. rewrite cos_0, sin_0. repeat (constructor; [lra|]). constructor.
Qed.
(** A hard loop closure with error q + q^2/2. *)
Example C117_values_case : (forall k, tidy onee dec_prog /\ compiled_by dec_prog 0 dec_pd /\ In bent_j (comps_of dec_pd) /\ wf_data onee (update bent onee (bent_q k)) /\ Forall (accepted bent (update bent onee (bent_q k))) (comps_of dec_pd)) /\
  sound_lib bent onee /\ is_hard bent_j = true /\ (forall x, j_gain_fn bent_j x = x) /\ Forall (fun a => 0 < a /\ a * 1 <= 1) (j_gain bent_j) /\ sampled_loop 0 (1 / 4) bent onee (fun _ => dec_pd) 1 bent_q bent_v bent_d bent_j /\
  call bent bent_j (update bent onee (bent_q 0)) = Ok [1 + 1 * 1 / 2].
Proof.
  split; [exact bent_ready|]. split; [exact bent_sound|]. split; [reflexivity|]. split; [reflexivity|]. split; [change (j_gain bent_j) with [1 / 2]; repeat constructor; lra|]. split; [exact bent_loop|]. reflexivity.
Qed.

(** ** Where the bound on the acceleration comes from *)
(** From derivatives of the rates. *)
Theorem C117_from_accelerations M L a b dt v ds j n (J : R -> mat) (acc : nat -> R -> R) : a < 0 -> dt < b -> flows L a b (fun _ => v) ds j ->
  (forall t, 0 <= t <= dt -> jacobian L j (ds t) = Ok (J t) /\ List.length (J t) = n /\ forall i, (i < n)%nat -> derivable_pt_lim (fun s => nth i (mv (J s) v) 0) t (acc i t) /\ Rabs (acc i t) <= M) ->
  steady M L dt v ds j.
Proof. exact (accelerations_bound M L a b dt v ds j n J acc). Qed.
Print Assumptions C117_from_accelerations.
(** On robots with hinges and slides only, integrating for the time t is moving along a line. *)
Theorem C117_straight_motion m q v t : wf_joints m -> m_nq m = m_nv m -> List.length q = m_nq m -> List.length v = m_nv m -> integrate m q v t = Ok (vadd q (vscale t v)).
Proof. exact (straight_integrate m q v t). Qed.
Print Assumptions C117_straight_motion.
(** Then joint barriers do not accelerate: their bound is eps / gain. *)
Theorem C117_joint_barriers_do_not_curve L m fm j lo hi dt q v : joint_barrier fm j -> has_limits j lo hi -> j_model j = m -> List.length lo = List.length (selected m fm) -> List.length hi = List.length (selected m fm) ->
  keeps_scalars L m -> wf_joints m -> m_nq m = m_nv m -> List.length q = m_nq m -> List.length v = m_nv m -> steady 0 L dt v (fun t => update L m (vadd q (vscale t v))) j.
Proof. exact (straight_limits L m fm j lo hi dt q v). Qed.
Print Assumptions C117_joint_barriers_do_not_curve.
(** The values of components with automatic Jacobians change at the rate J v along the line. *)
Theorem C117_rates_along_the_line L j k a b q v : let m := j_model j in sound_jac (l_jacrev L) -> automatic j -> kinematic L j -> wf_joints m -> m_nq m = m_nv m -> keeps_scalars L m -> List.length q = m_nq m -> List.length v = m_nv m ->
  (forall x, List.length x = m_nq m -> smooth L j k x) -> flows L a b (fun _ => v) (fun t => update L m (vadd q (vscale t v))) j.
Proof. exact (straight_automatic L j k a b q v). Qed.
Print Assumptions C117_rates_along_the_line.
Example C117_line_case : sound_jac (l_jacrev tick) /\ automatic rail /\ kinematic tick rail /\ wf_joints hinge /\ m_nq hinge = m_nv hinge /\ keeps_scalars tick hinge /\ (forall x, List.length x = m_nq hinge -> smooth tick rail 3 x) /\
  forall k, steady 1 tick (1 / 2) (swing_v k) (swing_d k) rail.
Proof. split; [exact true_jac_sound|]. split; [exact I|]. split; [exact rail_kinematic|]. split; [exact hinge_wf|]. split; [reflexivity|]. split; [apply DerivCases.rig_scalars|]. split; [exact rail_smooth|exact swing_steady]. Qed.
Example C117_joint_case : joint_barrier None lim1_j /\ has_limits lim1_j [-1] [1] /\ j_model lim1_j = one /\ keeps_scalars even_lib one /\ wf_joints one /\ m_nq one = m_nv one.
Proof. destruct lim1_case as (_ & _ & _ & D & E & _). split; [exact D|]. split; [exact E|]. split; [reflexivity|]. split; [apply even_keeps|]. split; [apply sound_wf, chain_sound|reflexivity]. Qed.
