(** C97: goals that can all be met at once are met exactly. *)
From Verif Require Import Base Lin Mjx Typing Component Problem SpecComponent SpecJoint SpecProblem SpecShape SpecFit SpecConf Conf JaxComponents LocalIK SpecQP SpecMotion SpecDeriv SpecLoop QPCases ConfCases MotionCases FitCases SpecSolve SpecDescent DescentCases SpecGoals GoalThms GoalThms2 GoalCases.
Open Scope R_scope.

(** The best velocity is one that moves.  It gives every task and soft constraint exactly
    the velocity it asks for if and only if some admissible velocity does so and nothing is
    damped.  How the goals are weighted against each other makes no difference. *)
Theorem C97_goals_met_iff L m os pi pd d v : tidy m os -> compiled_by os pi pd -> sound_lib L m -> wf_data m d -> Forall (accepted L d) (comps_of pd) -> Forall nonneg_weights (comps_of pd) -> Forall cares (comps_of pd) ->
  best L d pd v -> admissible L d pd (vzero (m_nv m)) -> moving v ->
  (meets_goals L d v pd <-> Forall (quiet L d) (comps_of pd) /\ exists w, admissible L d pd w /\ meets_goals L d w pd).
Proof. intros Ht Hc HL Hd Ha Hn Hr. exact (program_met_iff L m os pi pd Ht Hc HL d Hd Ha Hn Hr v). Qed.
Print Assumptions C97_goals_met_iff.

(** Without damping, if some admissible velocity meets all goals, the best velocities are
    exactly the admissible ones that do. *)
Theorem C97_best_are_those_that_meet L m os pi pd d v w : tidy m os -> compiled_by os pi pd -> sound_lib L m -> wf_data m d -> Forall (accepted L d) (comps_of pd) -> Forall nonneg_weights (comps_of pd) -> Forall cares (comps_of pd) ->
  best L d pd v -> Forall (quiet L d) (comps_of pd) -> admissible L d pd w -> meets_goals L d w pd ->
  forall u, best L d pd u <-> admissible L d pd u /\ meets_goals L d u pd.
Proof. intros Ht Hc HL Hd Ha Hn Hr. exact (program_best_iff L m os pi pd Ht Hc HL d Hd Ha Hn Hr v w). Qed.
Print Assumptions C97_best_are_those_that_meet.

(** The hinge of C87 at 1/3, gain 1/2: moves with -1/6. *)
Example C97_met_case : let pd := pull_pd (1 / 2) in let d := update even_lib one [1 / 3] in tidy one (pull_prog (1 / 2)) /\ compiled_by (pull_prog (1 / 2)) 0 pd /\ sound_lib even_lib one /\ wf_data one d /\ Forall (accepted even_lib d) (comps_of pd) /\
  Forall nonneg_weights (comps_of pd) /\ Forall cares (comps_of pd) /\ best even_lib d pd [- (1 / 2 * (1 / 3))] /\ admissible even_lib d pd (vzero (m_nv one)) /\ moving [- (1 / 2 * (1 / 3))] /\ Forall (quiet even_lib d) (comps_of pd) /\ meets_goals even_lib d [- (1 / 2 * (1 / 3))] pd.
Proof. exact pull_goal_case. Qed.
(** The same hinge at 1 with damping 1: -1/2 would meet the goal, the best velocity is -2/5. *)
Example C97_damped_case : let d := update even_lib one [1] in tidy one damp_prog /\ compiled_by damp_prog 0 damp_pd /\ wf_data one d /\ Forall (accepted even_lib d) (comps_of damp_pd) /\ Forall nonneg_weights (comps_of damp_pd) /\ Forall cares (comps_of damp_pd) /\
  best even_lib d damp_pd [- (2 / 5)] /\ admissible even_lib d damp_pd (vzero (m_nv one)) /\ moving [- (2 / 5)] /\ (admissible even_lib d damp_pd [- (1 / 2)] /\ meets_goals even_lib d [- (1 / 2)] damp_pd) /\ ~ Forall (quiet even_lib d) (comps_of damp_pd).
Proof. exact damp_case. Qed.

(** A scalar or per-axis cost without zeros notices every error. *)
Theorem C97_nonzero_costs_care j cost d : cost_means cost d (weight_of j) -> List.length (j_gain j) = d -> weighs_all cost d -> cares j.
Proof. exact (weighs_all_cares j cost d). Qed.
Print Assumptions C97_nonzero_costs_care.
Example C97_cost_case : cost_means (mkT [2%nat] [1; -3]) 2 [[1; 0]; [0; -3]] /\ weighs_all (mkT [2%nat] [1; -3]) 2.
Proof.
  split; [split; [split; [reflexivity|repeat constructor]|]; right; left; split; [reflexivity|]; intros [|[|i]] [|[|j]] Hi Hj; try lia; reflexivity|].
  right. split; [reflexivity|]. intros [|[|i]] Hi; cbn; try lia; lra.
Qed.

(** Along a motion on which the goals stay compatible, every error entry decays
    exponentially at the rate of its own gain, whatever the weights. *)
Theorem C97_exponential_decay L m os pi pd a b vs ds j : tidy m os -> compiled_by os pi pd -> sound_lib L m -> Forall nonneg_weights (comps_of pd) -> Forall cares (comps_of pd) ->
  (forall t, a < t < b -> wf_data m (ds t) /\ Forall (accepted L (ds t)) (comps_of pd) /\ best L (ds t) pd (vs t) /\ Forall (quiet L (ds t)) (comps_of pd) /\ exists w, admissible L (ds t) pd w /\ meets_goals L (ds t) w pd) ->
  In j (comps_of pd) -> seeks j = true -> flows L a b vs ds j -> (forall x, j_gain_fn j x = x) ->
  forall s t x y, a < s -> s <= t -> t < b -> call L j (ds s) = Ok x -> call L j (ds t) = Ok y ->
  List.length y = List.length x /\ forall i, (i < List.length x)%nat -> nth i y 0 = nth i x 0 * exp (- (nth i (j_gain j) 0 * (t - s))).
Proof. intros Ht Hc HL Hn Hr. exact (program_goal_flow L m os pi pd Ht Hc HL Hn Hr a b vs ds j). Qed.
Print Assumptions C97_exponential_decay.
Example C97_decay_case : let pd := pull_pd (1 / 2) in let ds := fun t => update even_lib one (glide t) in
  Forall nonneg_weights (comps_of pd) /\ Forall cares (comps_of pd) /\ In (pull_j (1 / 2)) (comps_of pd) /\ seeks (pull_j (1 / 2)) = true /\ (forall x, j_gain_fn (pull_j (1 / 2)) x = x) /\ j_gain (pull_j (1 / 2)) = [1 / 2] /\ (forall b, flows even_lib 0 b glide_v ds (pull_j (1 / 2))) /\
  forall t, 0 < t -> wf_data one (ds t) /\ Forall (accepted even_lib (ds t)) (comps_of pd) /\ best even_lib (ds t) pd (glide_v t) /\ Forall (quiet even_lib (ds t)) (comps_of pd) /\ exists w, admissible even_lib (ds t) pd w /\ meets_goals even_lib (ds t) w pd.
Proof. exact glide_goal_case. Qed.

(** The same for steps of length dt with errors that change by dt J v: after k steps every
    error entry is (1 - g dt)^k times what it was. *)
Theorem C97_geometric_decay L m os pi pd dt vs ds j : tidy m os -> compiled_by os pi pd -> sound_lib L m -> Forall nonneg_weights (comps_of pd) -> Forall cares (comps_of pd) ->
  (forall k, wf_data m (ds k) /\ Forall (accepted L (ds k)) (comps_of pd) /\ best L (ds k) pd (vs k) /\ Forall (quiet L (ds k)) (comps_of pd) /\ exists w, admissible L (ds k) pd w /\ meets_goals L (ds k) w pd) ->
  In j (comps_of pd) -> seeks j = true -> (forall k, advances L dt (vs k) (ds k) (ds (S k)) j) -> (forall x, j_gain_fn j x = x) ->
  exists e0, call L j (ds 0%nat) = Ok e0 /\ forall k, exists e, call L j (ds k) = Ok e /\ List.length e = List.length e0 /\
    forall i, (i < List.length e0)%nat -> nth i e 0 = (1 - nth i (j_gain j) 0 * dt) ^ k * nth i e0 0.
Proof. intros Ht Hc HL Hn Hr. exact (program_goal_steps L m os pi pd Ht Hc HL Hn Hr dt vs ds j). Qed.
Print Assumptions C97_geometric_decay.
Example C97_steps_case : let pd := pull_pd (1 / 2) in let ds := fun k => update even_lib one (halve k) in
  (forall k, integrate one (halve k) (halve_v k) 1 = Ok (halve (S k))) /\ (forall k, advances even_lib 1 (halve_v k) (ds k) (ds (S k)) (pull_j (1 / 2))) /\
  forall k, wf_data one (ds k) /\ Forall (accepted even_lib (ds k)) (comps_of pd) /\ best even_lib (ds k) pd (halve_v k) /\ Forall (quiet even_lib (ds k)) (comps_of pd) /\ exists w, admissible even_lib (ds k) pd w /\ meets_goals even_lib (ds k) w pd.
Proof. exact halve_goal_case. Qed.
