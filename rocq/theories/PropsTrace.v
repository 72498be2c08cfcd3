(** C91: changing settings does not re-trace a jitted solver. *)
From Verif Require Import Base Lin Mjx Typing Component Problem SpecComponent SpecHistory SpecCollision SpecProblem SpecSettings SpecQP JaxTree SpecTrace FitCases TraceFacts TraceCases.
Open Scope nat_scope.

(** One component: compiled, changed by any setters and assignments of [tuning],
    and compiled again.  The new object causes no re-trace exactly if the target
    and the limits keep their shapes; gains, costs, flags and distances never do. *)
Theorem C91_component_traced_once c os os' j j' : constructed c -> wf_arrays (c_at c) -> Forall wf_call os -> Forall tuning os' ->
  compiles (history os c) j -> compiles (history (os ++ os') c) j' ->
  (traced_once (component_object j) (component_object j') <-> same_shapes j j').
Proof. exact (trace_component c os os' j j'). Qed.
Print Assumptions C91_component_traced_once.

(** A whole problem, in every program: compiled, then any setters on any
    components and new velocity limits, then compiled again. *)
Theorem C91_problem_traced_once os os' pi pd pd' : documented os -> Forall tuning_step os' ->
  compiled_by os pi pd -> compiled_by (os ++ os') pi pd' ->
  (traced_once (data_object pd) (data_object pd') <->
   Forall2 (fun e e' => fst e = fst e' /\ same_shapes (snd e) (snd e')) (jd_comps pd) (jd_comps pd')).
Proof. exact (trace_program os os' pi pd pd'). Qed.
Print Assumptions C91_problem_traced_once.

(** Nine components of every kind: new target, gain, activity flag, minimal
    distance and velocity limit give different data and no re-trace; a stack of
    two targets in the place of one gives a re-trace. *)
Example C91_case : documented rig_prog /\ Forall tuning_step rig_tuning /\ Forall tuning_step rig_stack /\
  exists pd pd1 pd2, compiled_by rig_prog 0 pd /\ compiled_by (rig_prog ++ rig_tuning) 0 pd1 /\ compiled_by (rig_prog ++ rig_stack) 0 pd2 /\
    traced_once (data_object pd) (data_object pd1) /\ data_object pd <> data_object pd1 /\ ~ traced_once (data_object pd) (data_object pd2).
Proof. exact trace_case. Qed.
