(** Properties C98 to C102: how the solution changes with the problem. *)
From Verif Require Import Base Lin Mjx Typing Component Problem SpecComponent SpecJoint SpecHistory SpecProblem SpecShape SpecFit Witness CompThms2 Rot Conf JaxComponents LocalIK SpecQP SpecMotion SpecLoop SpecSolve.
From Verif Require Import QPCases MotionCases FitCases SpecDescent DescentCases SpecGoals GoalCases SpecTrade TradeFacts TradeThms TradeThms2 TradeThms3 TradeThms4 TradeCases.
Open Scope R_scope.

(** ** C98 *)
(** If a compiled problem differs from another only by more damping, and the damping of at
    least one component whose damping has an effect went up, then the best velocity of the
    second is no longer than that of the first, and without the damping terms costs no less. *)
Theorem C98_damping_shortens L d pd pd' v v' : damped_up pd pd' ->
  (exists k j j', nth_error (comps_of pd) k = Some j /\ nth_error (comps_of pd') k = Some j' /\ damping j < damping j' /\ reacts L d j) ->
  best L d pd v -> best L d pd' v' ->
  sq v' <= sq v /\ (Forall nonneg_weights (comps_of pd) -> exists x y, total_cost L d (map (redamped 0) (comps_of pd)) v x /\ total_cost L d (map (redamped 0) (comps_of pd)) v' y /\ x <= y).
Proof. exact (damping_shortens L d pd pd' v v'). Qed.
Print Assumptions C98_damping_shortens.
(** In terms of calls: assign a higher lm_damping (safe_displacement_gain) to one component and
    compile again. *)
Theorem C98_assigned_damping L os pi pd n ci j x pd' d v v' : Forall legal os -> compiled_by os pi pd -> registered os pi n ci -> In (n, j) (jd_comps pd) -> damping j < x -> reacts L d j ->
  compiled_by (os ++ [WCop ci (OpAssign (set_damping x))]) pi pd' -> best L d pd v -> best L d pd' v' ->
  sq v' <= sq v /\ (Forall nonneg_weights (comps_of pd) -> exists y z, total_cost L d (map (redamped 0) (comps_of pd)) v y /\ total_cost L d (map (redamped 0) (comps_of pd)) v' z /\ y <= z).
Proof. exact (damped_program L os pi pd n ci j x pd' d v v'). Qed.
Print Assumptions C98_assigned_damping.
(** Damping 0 and 1 on one hinge: the step shrinks from 1/2 to 2/5. *)
Example C98_case : let d := update even_lib one [1] in let j := pull_j (1 / 2) in Forall legal (pull_prog (1 / 2)) /\ compiled_by (pull_prog (1 / 2)) 0 (pull_pd (1 / 2)) /\ registered (pull_prog (1 / 2)) 0 "pull" 0 /\ In ("pull"%string, j) (jd_comps (pull_pd (1 / 2))) /\
  damping j < 1 /\ reacts even_lib d j /\ compiled_by (pull_prog (1 / 2) ++ [WCop 0 (OpAssign (set_damping 1))]) 0 damp_pd /\ Forall nonneg_weights (comps_of (pull_pd (1 / 2))) /\
  best even_lib d (pull_pd (1 / 2)) [- (1 / 2)] /\ best even_lib d damp_pd [- (2 / 5)] /\ sq [- (2 / 5)] < sq [- (1 / 2)].
Proof. exact damping_case. Qed.

(** ** C99 *)
(** Multiplying all gains and both velocity limits by s > 0 multiplies the best velocity by s,
    if Levenberg-Marquardt damping is divided by s squared. *)
Theorem C99_speed_scales L d s pd v : 0 < s -> best L d (sped_problem s pd) (vscale s v) <-> best L d pd v.
Proof. exact (sped_best L d s pd v). Qed.
Print Assumptions C99_speed_scales.
(** In terms of calls: for a problem without Levenberg-Marquardt damping, assign the multiplied
    gain to each of its components and the multiplied limits to the problem; it compiles, and
    its best velocities are the old ones times s, at every configuration. *)
Theorem C99_assigned_speed L os pi pd s cis : Forall legal os -> Forall wf_wop os -> compiled_by os pi pd -> Forall undamped (comps_of pd) -> lists_all (state os) pi cis -> 0 < s ->
  exists pd', compiled_by (os ++ speed_up s (state os) pi cis) pi pd' /\ forall d v, best L d pd' (vscale s v) <-> best L d pd v.
Proof. exact (speed_program L os pi pd s cis). Qed.
Print Assumptions C99_assigned_speed.
Example C99_case : let d := update even_lib one [1 / 3] in Forall legal (pull_prog (1 / 2)) /\ Forall wf_wop (pull_prog (1 / 2)) /\ compiled_by (pull_prog (1 / 2)) 0 (pull_pd (1 / 2)) /\ Forall undamped (comps_of (pull_pd (1 / 2))) /\ lists_all (state (pull_prog (1 / 2))) 0 [0%nat; 1%nat] /\
  best even_lib d (pull_pd (1 / 2)) [- (1 / 6)].
Proof. exact speed_case. Qed.

(** ** C100 *)
(** Adding a component to a problem appends its compiled form and changes nothing else. *)
Theorem C100_added_component os pi pd ci pd' : Forall legal os -> compiled_by os pi pd -> fst (step (WAdd pi ci) (state os)) = Ok ODone ->
  (forall p n, nth_error (w_probs (state os)) pi = Some p -> ~ In (n, ci) (p_comps p)) -> compiled_by (os ++ [WAdd pi ci]) pi pd' ->
  exists n j c c', pd' = extended pd n j /\ nth_error (w_comps (state os)) ci = Some c /\ update_model (jd_model pd) c = (Ok tt, c') /\ reachable c' /\ fst (jax_component c') = Ok j.
Proof. exact (add_compiled os pi pd ci pd'). Qed.
Print Assumptions C100_added_component.
(** A further barrier without safe displacement gain, or a further hard constraint, never lowers
    the cost of the best velocity. *)
Theorem C100_restriction_costs L d pd n j v v' : restricts j -> best L d pd v -> best L d (extended pd n j) v' ->
  exists x y, total_cost L d (comps_of pd) v x /\ total_cost L d (comps_of pd) v' y /\ x <= y.
Proof. exact (restriction_costs L d pd n j v v'). Qed.
Print Assumptions C100_restriction_costs.
(** If the best velocity obeys it already, it stays best. *)
Theorem C100_restriction_met L d pd n j v : restricts j -> (exists u z, cost_of L d j u z) -> best L d pd v -> obeys L d v j -> best L d (extended pd n j) v.
Proof. exact (restriction_met L d pd n j v). Qed.
Print Assumptions C100_restriction_met.
(** And a barrier that the solution stays strictly inside could have been left out. *)
Theorem C100_idle_barrier L d pd n j v : restricts j -> Forall nonneg_weights (comps_of pd) -> best L d (extended pd n j) v -> strictly_inside L d v j -> best L d pd v.
Proof. exact (inactive_barrier L d pd n j v). Qed.
Print Assumptions C100_idle_barrier.
(** Wider velocity limits never raise the cost of the best velocity; if it is within the old
    limits it was best before. *)
Theorem C100_wider_limits L d pd pd' v v' : loosened pd pd' -> best L d pd v -> best L d pd' v' ->
  (exists x y, total_cost L d (comps_of pd) v x /\ total_cost L d (comps_of pd) v' y /\ y <= x) /\ (vle v' (vneg (jd_vmin pd)) -> vle (vneg v') (jd_vmax pd) -> best L d pd v').
Proof. exact (loosening L d pd pd' v v'). Qed.
Print Assumptions C100_wider_limits.
(** A barrier at angle 1/4 stops the hinge short, one at -1/2 does nothing. *)
Example C100_added_case lo : Forall legal (floor_prog lo) /\ compiled_by (floor_prog lo) 0 (pull_pd (1 / 2)) /\ fst (step (WAdd 0 2) (state (floor_prog lo))) = Ok ODone /\ compiled_by (floor_prog lo ++ [WAdd 0 2]) 0 (floor_pd lo) /\
  forall p n, nth_error (w_probs (state (floor_prog lo))) 0 = Some p -> ~ In (n, 2%nat) (p_comps p).
Proof. exact (floor_compiled lo). Qed.
Example C100_tight_case : let d := update even_lib one [1 / 3] in restricts (floor_j (1 / 4)) /\ best even_lib d (pull_pd (1 / 2)) [- (1 / 2 * (1 / 3))] /\ best even_lib d (floor_pd (1 / 4)) [- (1 / 3 - 1 / 4)] /\ ~ obeys even_lib d [- (1 / 2 * (1 / 3))] (floor_j (1 / 4)).
Proof. exact tight_case. Qed.
Example C100_idle_case : let d := update even_lib one [1 / 3] in let j := floor_j (- (1 / 2)) in restricts j /\ (exists u z, cost_of even_lib d j u z) /\ best even_lib d (pull_pd (1 / 2)) [- (1 / 2 * (1 / 3))] /\ obeys even_lib d [- (1 / 2 * (1 / 3))] j /\
  Forall nonneg_weights (comps_of (pull_pd (1 / 2))) /\ best even_lib d (floor_pd (- (1 / 2))) [- (1 / 2 * (1 / 3))] /\ strictly_inside even_lib d [- (1 / 2 * (1 / 3))] j.
Proof. exact idle_case. Qed.

(** ** C101 *)
(** Raising the cost of one component never makes the solution serve it worse, nor the others
    together better. *)
Theorem C101_higher_cost L d pd l1 n j l2 s v v' : jd_comps pd = l1 ++ (n, j) :: l2 -> 1 < s * s -> best L d pd v -> best L d (with_components pd (l1 ++ (n, rescaled s j) :: l2)) v' ->
  exists a b a' b', cost_of L d j v a /\ total_cost L d (map snd (l1 ++ l2)) v b /\ cost_of L d j v' a' /\ total_cost L d (map snd (l1 ++ l2)) v' b' /\ a' <= a /\ b <= b'.
Proof. exact (priority L d pd l1 n j l2 s v v'). Qed.
Print Assumptions C101_higher_cost.
(** In terms of calls: assign a task its cost times s. *)
Theorem C101_assigned_cost L os pi pd n ci j s pd' d v v' : Forall legal os -> compiled_by os pi pd -> registered os pi n ci -> In (n, j) (jd_comps pd) -> (exists W lm k, j_ext j = JTask W lm k) -> 1 < s * s ->
  compiled_by (os ++ [WCop ci (OpCost (scaled_array s (task_cost (state os) ci)))]) pi pd' -> best L d pd v -> best L d pd' v' ->
  exists l1 l2 a b a' b', jd_comps pd = l1 ++ (n, j) :: l2 /\ cost_of L d j v a /\ total_cost L d (map snd (l1 ++ l2)) v b /\ cost_of L d j v' a' /\ total_cost L d (map snd (l1 ++ l2)) v' b' /\ a' <= a /\ b <= b'.
Proof. exact (priority_program L os pi pd n ci j s pd' d v v'). Qed.
Print Assumptions C101_assigned_cost.
(** With cost factor s a goal that some admissible velocity w meets is missed by at most what the
    other components cost at w, divided by s squared: it is met as s grows. *)
Theorem C101_large_cost L d pd l1 n j l2 s v w : jd_comps pd = l1 ++ (n, j) :: l2 -> s <> 0 -> Forall nonneg_weights (map snd (l1 ++ l2)) -> best L d (with_components pd (l1 ++ (n, rescaled s j) :: l2)) v ->
  admissible L d pd w -> cost_of L d j w 0 -> exists a b, cost_of L d j v a /\ total_cost L d (map snd (l1 ++ l2)) w b /\ a <= b / (s * s).
Proof. exact (penalty L d pd l1 n j l2 s v w). Qed.
Print Assumptions C101_large_cost.
(** Angle 0 against angle 1 on one hinge: velocity 1/4 with equal costs, 2/5 with cost 2. *)
Example C101_case : let d := update even_lib one [0] in let j := rival_j 1 in Forall legal (rival_prog 1) /\ compiled_by (rival_prog 1) 0 (rival_pd 1) /\ registered (rival_prog 1) 0 "rival" 1 /\ In ("rival"%string, j) (jd_comps (rival_pd 1)) /\ (exists W lm k, j_ext j = JTask W lm k) /\
  (exists pd', compiled_by (rival_prog 1 ++ [WCop 1 (OpCost (scaled_array 2 (task_cost (state (rival_prog 1)) 1)))]) 0 pd' /\ best even_lib d pd' [2 / 5]) /\ best even_lib d (rival_pd 1) [1 / 4] /\
  cost_of even_lib d j [1 / 4] (1 / 32) /\ cost_of even_lib d j [2 / 5] (1 / 200).
Proof. exact rival_case. Qed.
Example C101_large_case s : s <> 0 -> let d := update even_lib one [0] in let l1 := [("pull"%string, pull_j (1 / 2))] in jd_comps (rival_pd 1) = l1 ++ ("rival"%string, rival_j 1) :: [] /\ Forall nonneg_weights (map snd (l1 ++ [])) /\
  (exists v, best even_lib d (with_components (rival_pd 1) (l1 ++ [("rival"%string, rescaled s (rival_j 1))])) v) /\ admissible even_lib d (rival_pd 1) [1 / 2] /\ cost_of even_lib d (rival_j 1) [1 / 2] 0 /\ total_cost even_lib d (map snd (l1 ++ [])) [1 / 2] (1 / 8).
Proof. exact (penalty_case s). Qed.

(** ** C102 *)
(** A soft constraint on a user function is the same as an undamped task on it. *)
Theorem C102_soft_is_task L os pi pd name cost gain msk n f ct cc pd1 pd2 d v : let k := List.length (w_comps (state os)) in Forall legal os -> compiled_by os pi pd ->
  new_custom_task name cost gain None 0 msk n f = Ok ct -> new_custom_constraint name gain msk false (Some cost) n f = Ok cc ->
  fst (step (WAdd pi k) (state (os ++ [WNewComp ct]))) = Ok ODone -> fst (step (WAdd pi k) (state (os ++ [WNewComp cc]))) = Ok ODone ->
  compiled_by (os ++ [WNewComp ct; WAdd pi k]) pi pd1 -> compiled_by (os ++ [WNewComp cc; WAdd pi k]) pi pd2 -> best L d pd1 v <-> best L d pd2 v.
Proof. exact (soft_is_task L os pi pd name cost gain msk n f ct cc pd1 pd2 d v). Qed.
Print Assumptions C102_soft_is_task.
(** The same anywhere in the compiled problem. *)
Theorem C102_soft_compiled_is_task L d pd l1 n j l2 v : jd_comps pd = l1 ++ (n, j) :: l2 -> best L d (with_components pd (l1 ++ (n, as_task j) :: l2)) v <-> best L d pd v.
Proof. exact (as_task_best L d pd l1 n j l2 v). Qed.
Print Assumptions C102_soft_compiled_is_task.
(** A component given twice, with cost factors a and b, is one with factor sqrt(a^2 + b^2). *)
Theorem C102_twice_is_once L d pd n1 n2 n a b s j v : a <> 0 -> b <> 0 -> s * s = a * a + b * b -> best L d (extended (extended pd n1 (rescaled a j)) n2 (rescaled b j)) v <-> best L d (extended pd n (rescaled s j)) v.
Proof. exact (twice_best L d pd n1 n2 n a b s j v). Qed.
Print Assumptions C102_twice_is_once.
Example C102_case : exists ct cc pd pd1 pd2, Forall legal base_prog /\ compiled_by base_prog 0 pd /\ new_custom_task "angle" (tscalar 3) (tscalar 1) None 0 None 1 angle = Ok ct /\ new_custom_constraint "angle" (tscalar 1) None false (Some (tscalar 3)) 1 angle = Ok cc /\
  fst (step (WAdd 0 1) (state (base_prog ++ [WNewComp ct]))) = Ok ODone /\ fst (step (WAdd 0 1) (state (base_prog ++ [WNewComp cc]))) = Ok ODone /\
  compiled_by (base_prog ++ [WNewComp ct; WAdd 0 1]) 0 pd1 /\ compiled_by (base_prog ++ [WNewComp cc; WAdd 0 1]) 0 pd2 /\ List.length (w_comps (state base_prog)) = 1%nat.
Proof. exact soft_case. Qed.
(** Factors 3 and 4 make 5: the second goal of the C101 case given twice. *)
Example C102_twice_case : let d := update even_lib one [0] in let pd := with_components (rival_pd 1) [("pull"%string, pull_j (1 / 2))] in 3 <> 0 /\ 4 <> 0 /\ 5 * 5 = 3 * 3 + 4 * 4 /\
  best even_lib d (extended pd "rival" (rescaled 5 (rival_j 1))) [25 / 52].
Proof. exact twice_case. Qed.
