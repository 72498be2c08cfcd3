(** C103 - C105: a solver with a tolerance, velocities that are nearly best, damping and speed. *)
From Verif Require Import Base Lin LinFacts Mjx Typing Component Problem SpecComponent SpecJoint SpecHistory SpecTyping SpecCollision SpecTree SpecShape SpecContact SpecValue SpecProblem SpecQP SpecFit SpecTrace SpecSetup.
From Verif Require Import SetupFacts SetupFacts2 SetupCases Conf JaxComponents LocalIK SpecMotion SpecLoop SpecSolve SpecClosed SpecDescent SpecTol TolFacts TolThms TolThms2 TolThms3 ValueCases FitCases MotionCases DescentCases GoalCases ClosedCases QPCases TolCases.
Open Scope R_scope.

(** A velocity violates no row of the quadratic programme by more than [eps] exactly if it
    keeps the velocity limits, the condition of every barrier and the equation of every
    hard constraint up to [eps]. *)
Theorem C103_residual L m os pi pd d Q eps v : tidy m os -> compiled_by os pi pd -> sound_lib L m -> wf_data m d -> Forall (accepted L d) (comps_of pd) ->
  assemble L m pd d = Ok Q -> List.length v = m_nv m -> (residual eps Q v <-> nearly eps L d pd v).
Proof. exact (program_residual L m os pi pd d Q eps v). Qed.
Print Assumptions C103_residual.
Theorem C103_no_tolerance L d pd v : nearly 0 L d pd v <-> admissible L d pd v.
Proof. exact (nearly_0 L d pd v). Qed.
Print Assumptions C103_no_tolerance.

Example C103_case : let pd := pull_pd (1 / 2) in tidy one (pull_prog (1 / 2)) /\ compiled_by (pull_prog (1 / 2)) 0 pd /\ sound_lib even_lib one /\ wf_data one (at_ 1) /\ Forall (accepted even_lib (at_ 1)) (comps_of pd) /\
  (exists Q, assemble even_lib one pd (at_ 1) = Ok Q) /\ nearly (1 / 10) even_lib (at_ 1) pd [1 / 10] /\ ~ nearly (1 / 11) even_lib (at_ 1) pd [1 / 10].
Proof. exact row_case. Qed.

(** Joint limits, step after step with such velocities: what is left of the slack after
    [k] steps is at least the share r = (1 - gain * dt)^k of the slack at the start, less
    (1 - r) * eps / gain.  So positions stay within limits widened by eps / gain. *)
Theorem C103_limits_up_to_tolerance L m os pi pd fm j lo hi eps dt (q v : nat -> vec) :
  tidy m os -> compiled_by os pi pd -> sound_lib L m ->
  (forall x, List.length x = m_nq m -> wf_data m (update L m x) /\ Forall (accepted L (update L m x)) (comps_of pd)) ->
  joint_barrier fm j -> In j (comps_of pd) -> has_limits j lo hi ->
  keeps_scalars L m -> (forall x, j_gain_fn j x = x) -> 0 <= dt -> Forall (fun a => 0 < a /\ a * dt <= 1) (j_gain j) ->
  near_loop eps L m pd dt q v ->
  (forall k i, (i < List.length (j_gain j))%nat -> let a := nth i (j_gain j) 0 in let r := (1 - a * dt) ^ k in
     r * nth i (slack lo hi (sel_pos m fm (q 0%nat))) 0 - (1 - r) * (eps / a) <= nth i (slack lo hi (sel_pos m fm (q k))) 0) /\
  (forall g, 0 < g -> Forall (fun a => g <= a) (j_gain j) -> 0 <= eps -> within_by (eps / g) lo hi (sel_pos m fm (q 0%nat)) -> forall k, within_by (eps / g) lo hi (sel_pos m fm (q k))).
Proof. exact (program_near_limits L m os pi pd fm j lo hi eps dt q v). Qed.
Print Assumptions C103_limits_up_to_tolerance.

(** The bound is attained: a hinge at its upper limit, each velocity a tenth too large. *)
Example C103_limits_case : let pd := pull_pd (1 / 2) in near_loop (1 / 10) even_lib one pd (1 / 2) creep_q creep_v /\ within_by (1 / 10 / 1) [-1] [1] (sel_pos one None (creep_q 0)) /\ ~ within_by 0 [-1] [1] (sel_pos one None (creep_q 1)) /\
  (forall x, List.length x = m_nq one -> wf_data one (update even_lib one x) /\ Forall (accepted even_lib (update even_lib one x)) (comps_of pd)) /\
  joint_barrier None lim1_j /\ In lim1_j (comps_of pd) /\ has_limits lim1_j [-1] [1] /\ keeps_scalars even_lib one /\ (forall x, j_gain_fn lim1_j x = x) /\ Forall (fun a => 0 < a /\ a * (1 / 2) <= 1) (j_gain lim1_j) /\ Forall (fun a => 1 <= a) (j_gain lim1_j) /\
  forall k, nth 1 (slack [-1] [1] (sel_pos one None (creep_q k))) 0 = (1 - 1 * (1 / 2)) ^ k * nth 1 (slack [-1] [1] (sel_pos one None (creep_q 0))) 0 - (1 - (1 - 1 * (1 / 2)) ^ k) * (1 / 10 / 1).
Proof. exact creep_case. Qed.

(** Any barrier and any hard constraint in continuous time, r = exp (- gain * (t - s)):
    a barrier value is at least x * r - (1 - r) * eps / gain, and a hard constraint is
    within (1 - r) * eps / gain of x * r. *)
Theorem C103_flow_up_to_tolerance L m os pi pd : tidy m os -> compiled_by os pi pd -> sound_lib L m -> forall a b vs ds, (forall t, a < t < b -> wf_data m (ds t) /\ Forall (accepted L (ds t)) (comps_of pd)) ->
  forall eps j, In j (comps_of pd) -> flows L a b vs ds j -> (forall t, a < t < b -> nearly eps L (ds t) pd (vs t)) -> (forall x, j_gain_fn j x = x) -> Forall (fun g => 0 < g) (j_gain j) ->
  forall s t x y, a < s -> s <= t -> t < b -> call L j (ds s) = Ok x -> call L j (ds t) = Ok y -> forall i, (i < List.length x)%nat -> let g := nth i (j_gain j) 0 in let r := exp (- (g * (t - s))) in
  (is_barrier j = true -> nth i x 0 * r - (1 - r) * (eps / g) <= nth i y 0) /\ (is_hard j = true -> Rabs (nth i y 0 - nth i x 0 * r) <= (1 - r) * (eps / g)).
Proof. exact (program_near_flow L m os pi pd). Qed.
Print Assumptions C103_flow_up_to_tolerance.
Example C103_flow_case : (forall t, 0 < t -> nearly (1 / 10) even_lib (update even_lib one (glide t)) (pull_pd (1 / 2)) (glide_v t)) /\
  forall b, Forall (flows even_lib 0 b glide_v (fun t => update even_lib one (glide t))) (comps_of (pull_pd (1 / 2))).
Proof. exact (conj glide_near (proj2 glide_case)). Qed.

(** The documented control loop with such a solver, whatever the tasks do: started within
    the limits of its joint barriers widened by eps / g, it stays there, where [g] is a
    lower bound on barrier gains. *)
Theorem C103_loop_up_to_tolerance m lo hi cs L So g eps dt turns q s tr qn : sound_model m -> wf_tensor lo -> wf_tensor hi -> Forall constructed cs -> Forall (fun c => wf_arrays (c_at c)) cs ->
  limit_fits m lo -> limit_fits m hi -> NoDup (map nm cs) -> Forall (fun c => exists d, suits m c d) cs -> Forall (plain m) cs -> Forall (tracks m) cs ->
  sound_lib L m -> (forall q, List.length q = m_nq m -> wf_data m (update L m q)) -> keeps_scalars L m -> one_entry_each So -> 0 < g -> 0 <= eps -> Forall (brisk g dt) cs -> 0 <= dt ->
  Forall (Forall loop_call) turns -> Forall (Forall keeps_limits) turns -> List.length q = m_nq m -> Forall (in_limits_by (eps / g) m q) cs ->
  control_loop L So m dt (setup m lo hi cs) turns q s tr qn -> Forall (near_turn eps L m) tr ->
  Forall (in_limits_by (eps / g) m qn) cs /\
  Forall (fun t => let '(q, pd, v) := t in Forall (in_limits_by (eps / g) m q) cs /\ nearly eps L (update L m q) pd v) tr.
Proof. exact (loop_stays_near m lo hi cs L So g eps dt turns q s tr qn). Qed.
Print Assumptions C103_loop_up_to_tolerance.
(** Two turns with a solver that is a tenth too fast: the hinge leaves its range, by 3/40. *)
Example C103_loop_case : exists tr, control_loop even_lib hasty one (1 / 2) (setup one (tscalar (-4)) (tscalar 4) [half_pull; bar1]) [[aim]; []] [1] [0] tr [1 + 3 / 40] /\
  Forall (near_turn (1 / 10) even_lib one) tr /\ one_entry_each hasty /\ Forall (brisk 1 (1 / 2)) [half_pull; bar1] /\ Forall (in_limits_by (1 / 10 / 1) one [1]) [half_pull; bar1] /\ ~ Forall (in_limits one [1 + 3 / 40]) [half_pull; bar1].
Proof. exact hasty_loop. Qed.

(** README.md's loop: every hinge and slide stays within its range widened by eps / gain. *)
Theorem C103_readme_up_to_tolerance m s i lo hi cost g1 g2 lm d ft jb L So eps dt turns q s0 tr qn : sound_model m -> has_object m OBody s i -> (0 < n_scalar m)%nat ->
  wf_tensor lo -> wf_tensor hi -> limit_fits m lo -> limit_fits m hi ->
  new_frame_task "ee_task" (tscalar cost) (tscalar g1) s OBody None lm None = Ok ft ->
  new_joint_barrier "jnt_range" (tscalar g2) None d None None None = Ok jb ->
  0 <= dt -> 0 < g2 -> g2 * dt <= 1 -> 0 <= eps -> sound_lib L m -> keeps_scalars L m -> (forall q, List.length q = m_nq m -> wf_data m (update L m q)) -> one_entry_each So ->
  Forall (Forall loop_call) turns -> Forall (Forall keeps_limits) turns -> List.length q = m_nq m -> in_range_by (eps / g2) m q ->
  control_loop L So m dt (setup m lo hi [ft; jb]) turns q s0 tr qn -> Forall (near_turn eps L m) tr ->
  in_range_by (eps / g2) m qn /\ Forall (fun t => in_range_by (eps / g2) m (fst (fst t))) tr.
Proof. exact (readme_near m s i lo hi cost g1 g2 lm d ft jb L So eps dt turns q s0 tr qn). Qed.
Print Assumptions C103_readme_up_to_tolerance.
Example C103_readme_case : sound_model rig /\ has_object rig OBody "tip" 4 /\ (0 < n_scalar rig)%nat /\ sound_lib even_lib rig /\ keeps_scalars even_lib rig /\
  (forall q, List.length q = m_nq rig -> wf_data rig (update even_lib rig q)) /\ one_entry_each hasty /\ Forall loop_call turn /\ Forall keeps_limits turn /\ in_range_by (1 / 10 / 1) rig [0; 0; 0; 0] /\
  ~ in_range_by (1 / 10 / 1) rig [0; 3; 0; 0].
Proof.
  split; [exact rig_sound|]. split; [exact rig_tip|]. split; [repeat constructor|]. split; [apply even_sound|]. split; [apply even_keeps|]. split; [intros q; apply even_wf|]. split; [intros Q; cbn; now rewrite map_length|].
  split; [apply turn_loops|]. split; [apply turn_loops|]. exact rig_range_by.
Qed.

(** If the objective at an admissible velocity [w] is [y] and the least value is [x], taken
    at [v], then the two are no further apart than 2 * (y - x), in squared weighted task
    velocities plus damped squared joint velocities. *)
Theorem C104_gap_bounds_distance L m os pi pd d v w : tidy m os -> compiled_by os pi pd -> sound_lib L m -> wf_data m d -> Forall (accepted L d) (comps_of pd) ->
  best L d pd v -> admissible L d pd w ->
  exists x y zs, total_cost L d (comps_of pd) v x /\ total_cost L d (comps_of pd) w y /\ Forall2 (fun j z => apart L d j v w z) (comps_of pd) zs /\ vsum zs <= 2 * (y - x).
Proof. exact (program_gap L m os pi pd d v w). Qed.
Print Assumptions C104_gap_bounds_distance.
(** With equality when the hinge rests instead of moving towards its target. *)
Example C104_case : best even_lib (at_ 1) (pull_pd (1 / 2)) [- (1 / 2)] /\ admissible even_lib (at_ 1) (pull_pd (1 / 2)) [0] /\
  total_cost even_lib (at_ 1) (comps_of (pull_pd (1 / 2))) [- (1 / 2)] 0 /\ total_cost even_lib (at_ 1) (comps_of (pull_pd (1 / 2))) [0] (1 / 8) /\
  apart even_lib (at_ 1) (pull_j (1 / 2)) [- (1 / 2)] [0] (1 / 4) /\ apart even_lib (at_ 1) lim1_j [- (1 / 2)] [0] 0 /\ 1 / 4 + 0 = 2 * (1 / 8 - 0).
Proof. exact gap_case. Qed.

(** If every task has a damping of at least [lam] > 0 and standing still is admissible, the
    solution is no faster than 1 / (2 sqrt lam), whatever the Jacobians, costs and errors:
    also next to a singularity. *)
Theorem C105_damping_bounds_speed L m os pi pd d lam v : tidy m os -> compiled_by os pi pd -> sound_lib L m -> wf_data m d -> Forall (accepted L d) (comps_of pd) ->
  0 < lam -> Forall (robust lam) (comps_of pd) -> best L d pd v -> admissible L d pd (vzero (m_nv m)) -> Exists (off_target L d) (comps_of pd) -> sq v <= 1 / (4 * lam).
Proof. exact (program_speed L m os pi pd d lam v). Qed.
Print Assumptions C105_damping_bounds_speed.
Example C105_case : let d := update even_lib one [1] in tidy one damp_prog /\ compiled_by damp_prog 0 damp_pd /\ wf_data one d /\ Forall (accepted even_lib d) (comps_of damp_pd) /\
  Forall (robust 1) (comps_of damp_pd) /\ best even_lib d damp_pd [- (2 / 5)] /\ admissible even_lib d damp_pd (vzero (m_nv one)) /\ Exists (off_target even_lib d) (comps_of damp_pd) /\ 0 < sq [- (2 / 5)].
Proof. exact robust_case. Qed.
