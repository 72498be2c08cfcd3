(** Properties: existence, uniqueness and invariance of the local IK solution. *)
From Verif Require Import Base Lin Mjx Typing Component Problem SpecComponent SpecProblem SpecShape SpecFit JaxComponents LocalIK SpecQP QPCases SpecSolve SolveFacts SolveThms ScaleFacts ScaleThms SolveCases.
Open Scope R_scope.

(** ** C83: solve returns a best admissible velocity *)
(** A minimiser of the assembled programme is the same thing as a best admissible velocity. *)
Theorem C83_minimiser_is_best L m os pi pd d Q v : tidy m os -> compiled_by os pi pd -> sound_lib L m -> wf_data m d -> Forall (accepted L d) (comps_of pd) ->
  assemble L m pd d = Ok Q -> (optimal (m_nv m) Q v <-> best L d pd v).
Proof. exact (program_optimal L m os pi pd d Q v). Qed.
Print Assumptions C83_minimiser_is_best.
(** If any velocity is admissible, a best one exists (the costs may have any sign pattern; nothing is assumed of gains). *)
Theorem C83_solution_exists L m os pi pd d : tidy m os -> compiled_by os pi pd -> sound_lib L m -> wf_data m d -> Forall (accepted L d) (comps_of pd) ->
  (forall j J, In j (comps_of pd) -> is_barrier j = true -> jacobian L j d = Ok J -> frob2 J <> 0) ->
  (exists w, admissible L d pd w) -> exists v, best L d pd v.
Proof. exact (program_exists L m os pi pd d). Qed.
Print Assumptions C83_solution_exists.
Theorem C83_solve_returns_best L m os pi pd So q v0 : tidy m os -> compiled_by os pi pd -> sound_lib L m ->
  t_shape q = [m_nq m] -> let d := update L m (t_data q) in wf_data m d -> Forall (accepted L d) (comps_of pd) ->
  (forall Q, assemble L m pd d = Ok Q -> minimises So Q) -> (exists w, admissible L d pd w) ->
  (exists s v, solve L So m q v0 pd = Ok (s, v) /\ best L d pd v) \/
  (solve L So m q v0 pd = Err NonFinite /\ exists j J, In j (comps_of pd) /\ is_barrier j = true /\ jacobian L j d = Ok J /\ frob2 J = 0).
Proof. intros Ht Hc HL. exact (program_best L m os pi pd Ht Hc HL So q v0). Qed.
Print Assumptions C83_solve_returns_best.
(** Inside the limits, with the hard constraints met, the problem has a solution, and it is at least as good as standing still. *)
Theorem C83_better_than_standing_still L m os pi pd So q v0 : tidy m os -> compiled_by os pi pd -> sound_lib L m ->
  t_shape q = [m_nq m] -> let d := update L m (t_data q) in wf_data m d -> Forall (accepted L d) (comps_of pd) ->
  (forall j J, In j (comps_of pd) -> is_barrier j = true -> jacobian L j d = Ok J -> frob2 J <> 0) ->
  (forall Q, assemble L m pd d = Ok Q -> minimises So Q) -> may_rest L d pd ->
  exists s v x y, solve L So m q v0 pd = Ok (s, v) /\ best L d pd v /\ total_cost L d (comps_of pd) v x /\ total_cost L d (comps_of pd) (vzero (m_nv m)) y /\ x <= y.
Proof. intros Ht Hc HL. exact (program_rest L m os pi pd Ht Hc HL So q v0). Qed.
Print Assumptions C83_better_than_standing_still.
(** A posture task, joint limits, a hard and a soft loop closure on two hinges. *)
Example C83_case : tidy arm2e qp_prog /\ compiled_by qp_prog 0 qp_demo /\ sound_lib loop_lib arm2e /\ t_shape loop_q = [m_nq arm2e] /\
  let d := update loop_lib arm2e (t_data loop_q) in wf_data arm2e d /\ Forall (accepted loop_lib d) (comps_of qp_demo) /\
  (forall j J, In j (comps_of qp_demo) -> is_barrier j = true -> jacobian loop_lib j d = Ok J -> frob2 J <> 0) /\
  (exists So, forall Q, assemble loop_lib arm2e qp_demo d = Ok Q -> minimises So Q) /\ may_rest loop_lib d qp_demo /\ admissible loop_lib d qp_demo [0; 0] /\
  map fst (jd_comps qp_demo) = ["hold"; "limits"; "loop"; "soft"]%string.
Proof. exact loop_case. Qed.

(** ** C84: the solution is unique when something pins the motion; its weighted task velocities are unique always *)
Theorem C84_unique L m os pi pd d v w : tidy m os -> compiled_by os pi pd -> sound_lib L m -> wf_data m d -> Forall (accepted L d) (comps_of pd) ->
  (forall j J, In j (comps_of pd) -> is_barrier j = true -> jacobian L j d = Ok J -> frob2 J <> 0) ->
  Forall nonneg_weights (comps_of pd) -> best L d pd v -> best L d pd w ->
  (Exists (pins L (m_nv m) d) (comps_of pd) -> v = w) /\
  forall j, In j (comps_of pd) -> forall a b, weighted_velocity L d j v a -> weighted_velocity L d j w b -> a = b.
Proof. intros Ht Hc HL. exact (program_unique L m os pi pd Ht Hc HL d v w). Qed.
Print Assumptions C84_unique.
(** Without such a component the solution is not unique: an empty problem. *)
Theorem C84_pinning_is_needed : exists L m os pi pd d v w, tidy m os /\ compiled_by os pi pd /\ sound_lib L m /\ wf_data m d /\ Forall (accepted L d) (comps_of pd) /\
  Forall nonneg_weights (comps_of pd) /\ best L d pd v /\ best L d pd w /\ v <> w.
Proof. exact loose_case. Qed.
Print Assumptions C84_pinning_is_needed.
Example C84_case : Exists (pins loop_lib (m_nv arm2e) loop_at) (comps_of qp_demo) /\ (exists j, In j (comps_of qp_demo) /\ is_barrier j = false /\ pins loop_lib (m_nv arm2e) loop_at j) /\
  Forall nonneg_weights (comps_of qp_demo) /\ exists v, best loop_lib loop_at qp_demo v.
Proof. exact loop_unique_case. Qed.

(** ** C85: only ratios of costs matter *)
Theorem C85_scaling L s d pd v : s <> 0 -> best L d (rescaled_problem s pd) v <-> best L d pd v.
Proof. exact (rescaled_best L d s pd v). Qed.
Print Assumptions C85_scaling.
(** Through the API: multiplying the cost array of every task by the same non-zero number. *)
Theorem C85_task_costs L os pi pd s cis : Forall legal os -> compiled_by os pi pd -> Forall only_task_costs (comps_of pd) -> lists_tasks (state os) pi cis -> s <> 0 ->
  exists pd', compiled_by (os ++ rescale_costs s (state os) cis) pi pd' /\ forall d v, best L d pd' v <-> best L d pd v.
Proof. exact (rescale_program L os pi pd s cis). Qed.
Print Assumptions C85_task_costs.
Example C85_case : Forall legal plain_prog /\ compiled_by plain_prog 0 plain_pd /\ Forall only_task_costs (comps_of plain_pd) /\ lists_tasks (state plain_prog) 0 [0%nat] /\
  rescale_costs 4 (state plain_prog) [0%nat] = [WCop 0 (OpCost (mkT [] [4 * 2]))].
Proof. split; [exact plain_legal|]. split; [exact plain_compiled|]. split; [exact plain_only|]. split; [exact plain_tasks|]. vm_compute. reflexivity. Qed.

(** ** C86: a task of cost zero has no influence *)
Theorem C86_zero_cost_is_removal L m os pi pd n ci j d : tidy m os -> compiled_by os pi pd -> registered os pi n ci -> In (n, j) (jd_comps pd) -> (exists W lm k, j_ext j = JTask W lm k) ->
  sound_lib L m -> wf_data m d -> Forall (accepted L d) (comps_of pd) ->
  exists pd0 pd1, compiled_by (os ++ [WCop ci (OpCost (tscalar 0))]) pi pd0 /\ compiled_by (os ++ [WRemove pi n]) pi pd1 /\ forall v, best L d pd0 v <-> best L d pd1 v.
Proof. exact (zero_cost_removed L m os pi pd n ci j d). Qed.
Print Assumptions C86_zero_cost_is_removal.
(** Also for a soft constraint whose weight matrix is zero. *)
Theorem C86_weightless L nv d pd l1 n j l2 v : jd_comps pd = l1 ++ (n, j) :: l2 -> weightless j -> fits L nv d j ->
  best L d pd v <-> best L d (with_components pd (l1 ++ l2)) v.
Proof. exact (weightless_best L nv d pd l1 n j l2 v). Qed.
Print Assumptions C86_weightless.
Example C86_case : tidy arm2e qp_prog /\ compiled_by qp_prog 0 qp_demo /\ registered qp_prog 0 "hold" 0 /\ sound_lib loop_lib arm2e /\ wf_data arm2e loop_at /\ Forall (accepted loop_lib loop_at) (comps_of qp_demo) /\
  exists j W lm k, In ("hold"%string, j) (jd_comps qp_demo) /\ j_ext j = JTask W lm k /\ ~ weightless j.
Proof. exact loop_zero_case. Qed.
