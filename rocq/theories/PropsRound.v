(** C116: rounding errors of the positions do not add up at a joint limit. *)
From Flocq Require Import Core.Zaux Core.Raux Core.Defs Core.Generic_fmt Core.FLX Core.FLT Core.Round_NE.
From Verif Require Import Base Lin LinFacts Mjx Typing Component Problem SpecComponent SpecJoint SpecHistory SpecProblem SpecShape SpecFit SpecValue Conf JaxComponents LocalIK SpecQP SpecMotion SpecLoop SpecSolve SpecClosed SpecDescent SpecTol SpecRound RoundFacts RoundThms.
From Verif Require Import SetupFacts SetupFacts2 SetupCases QPFacts QPThms3 QPCases MotionCases ValueCases FitFacts FitFacts3 FitCases SolveThms DescentFacts DescentFacts2 DescentThms DescentThms2 DescentCases SpecGoals GoalCases ClosedCases SpecTol TolFacts TolThms TolThms2 TolThms3 TolCases RoundCases.
Open Scope R_scope.

(** Positions that are computed with an error of at most [rho] per step, from velocities that
    meet the conditions up to [eps], lose no more at a joint limit than a tolerance of
    eps + rho / dt would: r = (1 - gain * dt)^k is the share of the slack that is left after [k]
    steps.  However long the loop runs, positions stay within limits widened by
    (eps + rho / dt) / gain.  Problem data may change from step to step, the barrier may not. *)
Theorem C116_limits_up_to_errors L m os pi pd fm j lo hi eps rho dt (q v : nat -> vec) :
  (forall k : nat, tidy m (os k) /\ compiled_by (os k) (pi k) (pd k) /\ In j (comps_of (pd k)) /\ Forall (accepted L (update L m (q k))) (comps_of (pd k))) -> sound_lib L m ->
  joint_barrier fm j -> has_limits j lo hi -> keeps_scalars L m -> (forall x, j_gain_fn j x = x) -> 0 < dt -> Forall (fun a => 0 < a /\ a * dt <= 1) (j_gain j) ->
  rounded_loop eps rho L m pd dt q v ->
  (forall k i, (i < List.length (j_gain j))%nat -> let a := nth i (j_gain j) 0 in let r := (1 - a * dt) ^ k in
     r * nth i (slack lo hi (sel_pos m fm (q 0%nat))) 0 - (1 - r) * ((eps + rho / dt) / a) <= nth i (slack lo hi (sel_pos m fm (q k))) 0) /\
  (forall g, 0 < g -> Forall (fun a => g <= a) (j_gain j) -> 0 <= eps -> 0 <= rho -> within_by ((eps + rho / dt) / g) lo hi (sel_pos m fm (q 0%nat)) -> forall k, within_by ((eps + rho / dt) / g) lo hi (sel_pos m fm (q k))).
Proof. exact (rounded_limits L m os pi pd fm j lo hi eps rho dt q v). Qed.
Print Assumptions C116_limits_up_to_errors.
(** Attained by a hinge at its limit with errors of 1/10 and 1/20. *)
Example C116_errors_case : let pd := pull_pd (1 / 2) in rounded_loop (1 / 10) (1 / 20) even_lib one (fun _ => pd) (1 / 2) slip_q slip_v /\
  (forall k, tidy one (pull_prog (1 / 2)) /\ compiled_by (pull_prog (1 / 2)) 0 pd /\ In lim1_j (comps_of pd) /\ Forall (accepted even_lib (update even_lib one (slip_q k))) (comps_of pd)) /\ sound_lib even_lib one /\
  within_by ((1 / 10 + 1 / 20 / (1 / 2)) / 1) [-1] [1] (sel_pos one None (slip_q 0)) /\ ~ within_by (1 / 10 / 1) [-1] [1] (sel_pos one None (slip_q 2)) /\
  forall k, nth 1 (slack [-1] [1] (sel_pos one None (slip_q k))) 0 = (1 - 1 * (1 / 2)) ^ k * nth 1 (slack [-1] [1] (sel_pos one None (slip_q 0))) 0 - (1 - (1 - 1 * (1 / 2)) ^ k) * ((1 / 10 + 1 / 20 / (1 / 2)) / 1).
Proof. exact slip_case. Qed.

(** One rounding, and the two roundings of q + dt * v. *)
Theorem C116_one_rounding x : Rabs (fl32 x - x) <= / 2 ^ 24 * Rabs x + / 2 ^ 150.
Proof. exact (fl32_error x). Qed.
Print Assumptions C116_one_rounding.
Theorem C116_rounded_sum x p X P : Rabs x <= X -> Rabs p <= P -> Rabs (fl32 (x + fl32 p) - (x + p)) <= (X + 3 * P) / 2 ^ 24 + 3 / 2 ^ 150.
Proof. exact (fl32_step x p X P). Qed.
Print Assumptions C116_rounded_sum.

(** Single precision: joint limits of size at most [B], velocity limits of size at most [V],
    gains of at least [g].  If solver tolerance and rounding are no more than what the barrier
    makes up for in one step at the widened limits, positions never leave them. *)
Theorem C116_limits_in_single_precision L m os pi pd fm j lo hi eps dt B V w g (q v : nat -> vec) :
  (forall k : nat, tidy m (os k) /\ compiled_by (os k) (pi k) (pd k) /\ In j (comps_of (pd k)) /\ Forall (accepted L (update L m (q k))) (comps_of (pd k)) /\ at_most V (jd_vmin (pd k)) /\ at_most V (jd_vmax (pd k))) -> sound_lib L m ->
  joint_barrier fm j -> has_limits j lo hi -> at_most B lo -> at_most B hi -> keeps_scalars L m -> (forall x, j_gain_fn j x = x) -> Forall (fun a => g <= a /\ a * dt <= 1) (j_gain j) ->
  0 <= dt -> 0 <= eps -> 0 <= V -> 0 <= w -> eps * dt + (B + w + 3 * (dt * (V + eps))) / 2 ^ 24 + 3 / 2 ^ 150 <= g * dt * w ->
  fl32_loop eps L m pd dt q v -> within_by w lo hi (sel_pos m fm (q 0%nat)) -> forall k, within_by w lo hi (sel_pos m fm (q k)).
Proof. exact (fl32_limits L m os pi pd fm j lo hi eps dt B V w g q v). Qed.
Print Assumptions C116_limits_in_single_precision.
(** A loop that goes on for ever and whose first sum is not exact. *)
Example C116_single_case : let pd := pull_pd (1 / 2) in fl32_loop (1 / 10) even_lib one (fun _ => pd) (1 / 2) thirds_q thirds_v /\
  (forall k, tidy one (pull_prog (1 / 2)) /\ compiled_by (pull_prog (1 / 2)) 0 pd /\ In lim1_j (comps_of pd) /\ Forall (accepted even_lib (update even_lib one (thirds_q k))) (comps_of pd) /\ at_most 4 (jd_vmin pd) /\ at_most 4 (jd_vmax pd)) /\ sound_lib even_lib one /\
  joint_barrier None lim1_j /\ has_limits lim1_j [-1] [1] /\ at_most 1 [-1] /\ at_most 1 [1] /\ keeps_scalars even_lib one /\ (forall x, j_gain_fn lim1_j x = x) /\ Forall (fun a => 1 <= a /\ a * (1 / 2) <= 1) (j_gain lim1_j) /\
  (let w := 1 / 10 + 1 / 10000 in 1 / 10 * (1 / 2) + (1 + w + 3 * (1 / 2 * (4 + 1 / 10))) / 2 ^ 24 + 3 / 2 ^ 150 <= 1 * (1 / 2) * w /\ within_by w [-1] [1] (sel_pos one None (thirds_q 0))) /\
  forall x, integrate one (thirds_q 0) (thirds_v 0) (1 / 2) = Ok x -> x <> thirds_q 1.
Proof. exact thirds_case. Qed.
(** Limits of 3 rad, 5 rad/s, dt = 10 ms, gain 10, solver tolerance 1e-5: 3 microradians. *)
Example C116_numbers_case : let w := 3 / 1000000 in 1 / 100000 * (1 / 100) + (3 + w + 3 * (1 / 100 * (5 + 1 / 100000))) / 2 ^ 24 + 3 / 2 ^ 150 <= 10 * (1 / 100) * w.
Proof. exact microradians. Qed.
