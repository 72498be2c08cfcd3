(** C119: how closely moving targets are followed. *)
From Verif Require Import Base Lin LinFacts Mjx Typing Component Problem SpecComponent SpecJoint SpecHistory SpecProblem SpecConf SpecShape SpecFit SpecValue Conf JaxComponents LocalIK SpecQP SpecMotion SpecSolve SpecClosed SpecDescent SpecDeriv SpecTol SpecStep SpecGoals SpecMove SpecTrack.
From Verif Require Import LinFacts ConfCases ValueCases QPCases MotionCases FitFacts FitCases DescentCases MoveThms2 TrackFacts TrackCases.
Open Scope R_scope.

(** A task is followed step after step: its target moves by at most [s] per unit of time, the
    velocities give it the rate it asks for up to [eps], and the rates accelerate by at most [M]
    while a velocity is held.  After k steps all but the share r = (1 - gain dt)^k of the
    initial error is gone, up to (1 - r) (s + eps + M dt / 2) / gain. *)
Theorem C119_error_after_steps L m os pi pd js eps M s dt (q v : nat -> vec) ds :
  (forall k : nat, tidy m (os k) /\ compiled_by (os k) (pi k) (pd k) /\ In (js k) (comps_of (pd k)) /\ wf_data m (update L m (q k)) /\ Forall (accepted L (update L m (q k))) (comps_of (pd k))) -> sound_lib L m ->
  (forall k x, j_gain_fn (js k) x = x) -> 0 < dt -> let g := j_gain (js 0%nat) in Forall (fun a => 0 < a /\ a * dt <= 1) g ->
  (forall k, nearly_met eps L (update L m (q k)) (v k) (js k)) -> chasing M s L m dt q v ds js ->
  exists h : nat -> vec, (forall k, call L (js k) (update L m (q k)) = Ok (h k) /\ List.length (h k) = List.length g) /\
  forall k i, (i < List.length g)%nat -> let a := nth i g 0 in let r := (1 - a * dt) ^ k in Rabs (nth i (h k) 0 - r * nth i (h 0%nat) 0) <= (1 - r) * ((s + eps + M * dt / 2) / a).
Proof. exact (chase_loop L m os pi pd js eps M s dt q v ds). Qed.
Print Assumptions C119_error_after_steps.

(** In the long run the task lags behind by no more than (s + eps + M dt / 2) / gain, wherever it
    started. *)
Theorem C119_lag_in_the_long_run L m os pi pd js eps M s dt (q v : nat -> vec) ds :
  (forall k : nat, tidy m (os k) /\ compiled_by (os k) (pi k) (pd k) /\ In (js k) (comps_of (pd k)) /\ wf_data m (update L m (q k)) /\ Forall (accepted L (update L m (q k))) (comps_of (pd k))) -> sound_lib L m ->
  (forall k x, j_gain_fn (js k) x = x) -> 0 < dt -> 0 <= eps -> 0 <= M -> 0 <= s -> let g := j_gain (js 0%nat) in Forall (fun a => 0 < a /\ a * dt <= 1) g ->
  (forall k, nearly_met eps L (update L m (q k)) (v k) (js k)) -> chasing M s L m dt q v ds js ->
  forall x, 0 < x -> exists N, forall k e, (N <= k)%nat -> call L (js k) (update L m (q k)) = Ok e -> List.length e = List.length g /\ forall i, (i < List.length g)%nat -> Rabs (nth i e 0) <= (s + eps + M * dt / 2) / nth i g 0 + x.
Proof. exact (chase_for_ever L m os pi pd js eps M s dt q v ds). Qed.
Print Assumptions C119_lag_in_the_long_run.

(** Best velocities give every task exactly the rate it asks for if nothing is damped, no weight
    is blind to an error, and some admissible velocity would do so. *)
Theorem C119_best_velocities_meet_tasks L m os pi pd d v j : tidy m os -> compiled_by os pi pd -> sound_lib L m -> wf_data m d -> Forall (accepted L d) (comps_of pd) -> Forall nonneg_weights (comps_of pd) -> Forall cares (comps_of pd) ->
  best L d pd v -> Forall (quiet L d) (comps_of pd) -> (exists w, admissible L d pd w /\ meets_goals L d w pd) -> In j (comps_of pd) -> seeks j = true -> nearly_met 0 L d v j.
Proof. exact (best_meets L m os pi pd d v j). Qed.
Print Assumptions C119_best_velocities_meet_tasks.

(** Joint, position and centre-of-mass tasks: the target setter compiles to the same task with
    the new target, and the error shifts by no more than the target moved. *)
Theorem C119_setting_a_target t o c j : reachable c -> fst (jax_component c) = Ok j -> aims t j o -> Z.of_nat (List.length t) = j_dim j -> fst (run_cop o c) = Ok tt /\ fst (jax_component (after o c)) = Ok (retarget t j).
Proof. exact (retarget_call t o c j). Qed.
Print Assumptions C119_setting_a_target.
Theorem C119_errors_shift_with_targets L d j t0 e delta t t' : target_of j = Some t0 -> call L j d = Ok e -> List.length t0 = List.length e -> List.length t = List.length e -> close_by delta t' t -> moved_by delta L d (retarget t j) (retarget t' j).
Proof. exact (retarget_moves L d j t0 e delta t t'). Qed.
Print Assumptions C119_errors_shift_with_targets.

(** On robots with hinges and slides only, errors of joint tasks do not accelerate. *)
Theorem C119_joint_tasks_do_not_curve L m fm j t dt q v : joint_task fm j -> has_target j t -> j_model j = m -> keeps_scalars L m -> wf_joints m -> m_nq m = m_nv m ->
  List.length q = m_nq m -> List.length v = m_nv m -> steady 0 L dt v (fun t => update L m (vadd q (vscale t v))) j.
Proof. exact (straight_joint_task L m fm j t dt q v). Qed.
Print Assumptions C119_joint_tasks_do_not_curve.

(** A hinge with a posture task of gain 1/2 follows the targets 0, 1, 2, ... with best
    velocities and steps of length 1: after every number of steps the bound is attained. *)
Example C119_case : (forall k, tidy one (chase_prog (run_t k)) /\ compiled_by (chase_prog (run_t k)) 0 (chase_pd (run_t k)) /\ In (run_j k) (comps_of (chase_pd (run_t k))) /\ wf_data one (update even_lib one (run_q k)) /\ Forall (accepted even_lib (update even_lib one (run_q k))) (comps_of (chase_pd (run_t k)))) /\
  sound_lib even_lib one /\ (forall k x, j_gain_fn (run_j k) x = x) /\ j_gain (run_j 0) = [1 / 2] /\ chasing 0 1 even_lib one 1 run_q run_v run_d run_j /\
  (forall k, let d := update even_lib one (run_q k) in let pd := chase_pd (run_t k) in best even_lib d pd (run_v k) /\ Forall nonneg_weights (comps_of pd) /\ Forall cares (comps_of pd) /\ Forall (quiet even_lib d) (comps_of pd) /\ (exists w, admissible even_lib d pd w /\ meets_goals even_lib d w pd) /\ seeks (run_j k) = true) /\
  run_q 0 = [0 + run_e 0] /\ run_e 0 = 0 /\ forall k, exists e, call even_lib (run_j k) (update even_lib one (run_q k)) = Ok e /\ Rabs (nth 0 e 0) = (1 - (1 - 1 / 2 * 1) ^ k) * ((1 + 0 + 0 * 1 / 2) / (1 / 2)).
Proof.
  split; [exact run_ready|]. split; [apply even_sound|]. split; [reflexivity|]. split; [reflexivity|]. split; [exact run_chasing|]. split; [exact run_best|]. split; [reflexivity|]. split; [unfold run_e; cbn; lra|].
  intros k. destruct (run_lag k) as (e & Ee & He). exists e. split; [exact Ee|]. rewrite He. pose proof (run_range k) as R. rewrite Rabs_left1 by lra. unfold run_e. lra.
Qed.
Example C119_joint_case k : joint_task None (run_j k) /\ has_target (run_j k) [run_t k] /\ target_of (run_j k) = Some [run_t k] /\ retarget [run_t (S k)] (run_j k) = run_j (S k) /\ close_by 1 [run_t (S k)] [run_t k].
Proof. destruct (chase_is (run_t k)) as [A B]. split; [exact A|]. split; [exact B|]. split; [reflexivity|]. split; [reflexivity|]. assert (T : run_t (S k) = run_t k + 1) by apply S_INR. rewrite T. constructor; [|constructor]. apply abs_between. lra. Qed.
