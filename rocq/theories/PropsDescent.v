(** C87-C89: the closed loop. Errors do not grow, barriers hold, hard constraints decay. *)
From Verif Require Import Base Lin Mjx Typing Component Problem SpecComponent SpecJoint SpecProblem SpecShape SpecFit SpecConf Conf JaxComponents LocalIK SpecQP SpecMotion SpecDeriv SpecLoop QPCases ConfCases MotionCases FitCases SpecSolve SpecDescent DescentThms DescentThms2 DescentCases.
Open Scope R_scope.

(** ** C87: the weighted error never grows under the loop solve-then-integrate *)
(** One step, any components whose error changes by dt J v. *)
Theorem C87_one_step L m os pi pd d d' dt v : tidy m os -> compiled_by os pi pd -> sound_lib L m -> wf_data m d -> Forall (accepted L d) (comps_of pd) ->
  best L d pd v -> admissible L d pd (vzero (m_nv m)) -> Forall nonneg_weights (comps_of pd) -> 0 <= dt ->
  Forall (fun j => seeks j = true -> advances L dt v d d' j /\ exists g, uniform g j /\ 0 <= g * dt <= 2) (comps_of pd) ->
  forall x, energy L d (comps_of pd) x -> exists x', energy L d' (comps_of pd) x' /\ x' <= x.
Proof. intros Ht Hc HL. exact (program_energy_step L m os pi pd Ht Hc HL d d' dt v). Qed.
Print Assumptions C87_one_step.
(** Posture tasks and joint limits: from every configuration within the limits the loop runs
    for ever, stays within the limits, and the weighted posture error never grows. *)
Theorem C87_posture_loop L m os pi pd So dt : tidy m os -> compiled_by os pi pd -> sound_lib L m -> (forall x, List.length x = m_nq m -> wf_data m (update L m x)) -> keeps_scalars L m ->
  0 < dt -> Forall (posture m dt) (comps_of pd) -> Forall nonneg_weights (comps_of pd) -> vle (jd_vmin pd) (vzero (m_nv m)) -> vle (vzero (m_nv m)) (jd_vmax pd) ->
  (forall q Q, List.length q = m_nq m -> Forall (unviolated L (update L m q)) (comps_of pd) -> assemble L m pd (update L m q) = Ok Q -> minimises So Q) ->
  forall q0, List.length q0 = m_nq m -> Forall (unviolated L (update L m q0)) (comps_of pd) ->
  (exists q v, q 0%nat = q0 /\ solve_loop L So m pd dt q v) /\
  forall q v, q 0%nat = q0 -> solve_loop L So m pd dt q v ->
    (forall k, Forall (unviolated L (update L m (q k))) (comps_of pd) /\ exists x, energy L (update L m (q k)) (comps_of pd) x) /\
    forall k l x y, (k <= l)%nat -> energy L (update L m (q k)) (comps_of pd) x -> energy L (update L m (q l)) (comps_of pd) y -> y <= x.
Proof. exact (posture_loop L m os pi pd So dt). Qed.
Print Assumptions C87_posture_loop.
(** Without the bound on gain times step the error grows, although every step is optimal. *)
Theorem C87_gain_bound_is_needed : exists L m os pi pd dt q v q' x y, tidy m os /\ compiled_by os pi pd /\ sound_lib L m /\ Forall nonneg_weights (comps_of pd) /\ Forall (unviolated L (update L m q)) (comps_of pd) /\ admissible L (update L m q) pd (vzero (m_nv m)) /\
  best L (update L m q) pd v /\ integrate m q v dt = Ok q' /\ 0 < dt /\ Forall (fun j => seeks j = true -> exists fm t, joint_task fm j /\ has_target j t /\ uniform 3 j) (comps_of pd) /\ 3 * dt = 3 /\
  energy L (update L m q) (comps_of pd) x /\ energy L (update L m q') (comps_of pd) y /\ x < y.
Proof. exact overshoot_case. Qed.
Print Assumptions C87_gain_bound_is_needed.
(** A hinge pulled to 0 from 1/3 with gain 1/2 and step 1, limits [-1, 1]. *)
Example C87_case : let pd := pull_pd (1 / 2) in tidy one (pull_prog (1 / 2)) /\ compiled_by (pull_prog (1 / 2)) 0 pd /\ sound_lib even_lib one /\ (forall x, List.length x = m_nq one -> wf_data one (update even_lib one x)) /\
  keeps_scalars even_lib one /\ Forall (posture one 1) (comps_of pd) /\ Forall nonneg_weights (comps_of pd) /\ vle (jd_vmin pd) (vzero (m_nv one)) /\ vle (vzero (m_nv one)) (jd_vmax pd) /\
  (forall q Q, List.length q = m_nq one -> Forall (unviolated even_lib (update even_lib one q)) (comps_of pd) -> assemble even_lib one pd (update even_lib one q) = Ok Q -> minimises pull_solver Q) /\
  Forall (unviolated even_lib (update even_lib one [1 / 3])) (comps_of pd) /\ exists x, energy even_lib (update even_lib one [1 / 3]) (comps_of pd) x /\ 0 < x.
Proof. exact pull_case. Qed.

(** ** C88: the same in continuous time, for every gain *)
Theorem C88_error_never_grows L m os pi pd a b vs ds : tidy m os -> compiled_by os pi pd -> sound_lib L m ->
  (forall t, a < t < b -> wf_data m (ds t) /\ Forall (accepted L (ds t)) (comps_of pd)) -> Forall nonneg_weights (comps_of pd) ->
  (forall t, a < t < b -> best L (ds t) pd (vs t) /\ admissible L (ds t) pd (vzero (m_nv m))) ->
  Forall (fun j => seeks j = true -> flows L a b vs ds j /\ exists g, uniform g j) (comps_of pd) ->
  forall s t x y, a < s -> s <= t -> t < b -> energy L (ds s) (comps_of pd) x -> energy L (ds t) (comps_of pd) y -> y <= x.
Proof. intros Ht Hc HL. exact (program_energy_flow L m os pi pd Ht Hc HL a b vs ds). Qed.
Print Assumptions C88_error_never_grows.
(** Which components qualify: posture tasks, joint limits, and everything smooth that is differentiated
    automatically (positions, frames, centre of mass, custom functions), on hinge and slide robots. *)
Theorem C88_joint_tasks_qualify L a b vs qs fm j t : joint_task fm j -> has_target j t -> let m := j_model j in keeps_scalars L m -> follows m a b vs qs ->
  flows L a b vs (fun s => update L m (qs s)) j.
Proof. exact (joint_task_flows L a b vs qs fm j t). Qed.
Print Assumptions C88_joint_tasks_qualify.
Theorem C88_joint_limits_qualify L a b vs qs fm j lo hi : joint_barrier fm j -> has_limits j lo hi -> let m := j_model j in
  List.length lo = List.length (selected m fm) -> List.length hi = List.length (selected m fm) -> keeps_scalars L m -> follows m a b vs qs ->
  flows L a b vs (fun s => update L m (qs s)) j.
Proof. exact (joint_barrier_flows L a b vs qs fm j lo hi). Qed.
Print Assumptions C88_joint_limits_qualify.
Theorem C88_automatic_jacobians_qualify L a b vs qs j k : let m := j_model j in sound_jac (l_jacrev L) -> automatic j -> kinematic L j -> wf_joints m -> m_nq m = m_nv m -> keeps_scalars L m ->
  follows m a b vs qs -> (forall t, a < t < b -> smooth L j k (qs t)) -> flows L a b vs (fun s => update L m (qs s)) j.
Proof. exact (automatic_flows L a b vs qs j k). Qed.
Print Assumptions C88_automatic_jacobians_qualify.
(** The hinge gliding to 0 along exp (- t / 2). *)
Example C88_case : let pd := pull_pd (1 / 2) in let ds := fun t => update even_lib one (glide t) in
  (forall t, 0 < t -> wf_data one (ds t) /\ Forall (accepted even_lib (ds t)) (comps_of pd) /\ best even_lib (ds t) pd (glide_v t) /\ admissible even_lib (ds t) pd (vzero (m_nv one))) /\
  forall b, Forall (flows even_lib 0 b glide_v ds) (comps_of pd).
Proof. exact glide_case. Qed.

(** ** C89: barriers and hard constraints in continuous time *)
(** A barrier that is not violated stays so, under any admissible motion, and an unviolated or violated one
    with linear gain function obeys the exponential bound. *)
Theorem C89_barriers_hold L m os pi pd a b vs ds j : tidy m os -> compiled_by os pi pd -> sound_lib L m ->
  (forall t, a < t < b -> wf_data m (ds t) /\ Forall (accepted L (ds t)) (comps_of pd)) ->
  In j (comps_of pd) -> is_barrier j = true -> flows L a b vs ds j -> (forall t, a < t < b -> admissible L (ds t) pd (vs t)) ->
  (vnonneg (j_gain j) -> (forall x, x < 0 -> j_gain_fn j x <= 0) ->
     forall s t x y, a < s -> s <= t -> t < b -> call L j (ds s) = Ok x -> call L j (ds t) = Ok y -> vnonneg x -> vnonneg y) /\
  ((forall x, j_gain_fn j x = x) -> forall s t x y, a < s -> s <= t -> t < b -> call L j (ds s) = Ok x -> call L j (ds t) = Ok y ->
     forall i, (i < List.length x)%nat -> nth i x 0 * exp (- (nth i (j_gain j) 0 * (t - s))) <= nth i y 0).
Proof. intros Ht Hc HL Hd. exact (program_barrier_flow L m os pi pd Ht Hc HL a b vs ds Hd j). Qed.
Print Assumptions C89_barriers_hold.
(** The error of a hard constraint decays exactly exponentially with its gain. *)
Theorem C89_hard_constraints_decay L m os pi pd a b vs ds j : tidy m os -> compiled_by os pi pd -> sound_lib L m ->
  (forall t, a < t < b -> wf_data m (ds t) /\ Forall (accepted L (ds t)) (comps_of pd)) ->
  In j (comps_of pd) -> is_hard j = true -> flows L a b vs ds j -> (forall t, a < t < b -> admissible L (ds t) pd (vs t)) -> (forall x, j_gain_fn j x = x) ->
  forall s t x y, a < s -> s <= t -> t < b -> call L j (ds s) = Ok x -> call L j (ds t) = Ok y ->
  List.length y = List.length x /\ forall i, (i < List.length x)%nat -> nth i y 0 = nth i x 0 * exp (- (nth i (j_gain j) 0 * (t - s))).
Proof. intros Ht Hc HL Hd. exact (program_hard_flow L m os pi pd Ht Hc HL a b vs ds Hd j). Qed.
Print Assumptions C89_hard_constraints_decay.
(** The barrier case is C88_case: its problem has joint limits [-1, 1] with gain 1. A hard loop closure: *)
Example C89_limits_case : exists j, In j (comps_of (pull_pd (1 / 2))) /\ is_barrier j = true /\ (forall x, j_gain_fn j x = x) /\ j_gain j = [1; 1] /\
  forall x, call even_lib j (update even_lib one [x]) = Ok [x - -1; 1 - x].
Proof. eexists. split; [right; left; reflexivity|]. split; [reflexivity|]. split; [reflexivity|]. split; [reflexivity|]. intros x. exact (proj1 (pull_bar_at x)). Qed.
Example C89_hard_case : tidy onee dec_prog /\ compiled_by dec_prog 0 dec_pd /\ sound_lib even_lib onee /\ exists j, comps_of dec_pd = [j] /\ is_hard j = true /\ (forall x, j_gain_fn j x = x) /\
  (forall t, 0 < t -> wf_data onee (fade_d t) /\ Forall (accepted even_lib (fade_d t)) (comps_of dec_pd) /\ admissible even_lib (fade_d t) dec_pd (glide_v t)) /\
  forall b, flows even_lib 0 b glide_v fade_d j.
Proof. exact fade_case. Qed.
