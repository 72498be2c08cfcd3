(** C96: control loops with every kind of component. *)
From Verif Require Import Base Lin LinFacts Mjx Typing Component Problem SpecComponent SpecJoint SpecHistory SpecTyping SpecCollision SpecTree SpecShape SpecContact SpecSelf SpecValue SpecProblem SpecQP SpecFit SpecTrace SpecSetup.
From Verif Require Import JaxComponents LocalIK GlobalIK Conf Witness SetupFacts2 SetupCases FitCases SpecMotion MotionCases SpecSolve SpecGlobal SpecClosed SpecGLoop SpecAnyLoop AnyLoopThms2 GLoopCases ClosedCases DescentCases ValueCases QPCases AnyLoopCases.
Open Scope R_scope.

(** A problem is built once from any suitable tasks, barriers and constraints; then each turn
    makes some calls, compiles the problem, solves it at the current configuration and
    integrates the velocity.  Either the loop runs through all its turns, or it runs through
    some of them and then [solve] reports a value that is not finite, and the reason is a
    barrier whose Jacobian is zero at the configuration reached.  There is no other failure. *)
Theorem C96_loop_runs_or_a_barrier_is_idle m lo hi cs L So dt turns q s : sound_model m -> wf_tensor lo -> wf_tensor hi -> Forall constructed cs -> Forall (fun c => wf_arrays (c_at c)) cs ->
  limit_fits m lo -> limit_fits m hi -> NoDup (map nm cs) -> Forall (fun c => exists d, suits m c d) cs -> Forall (plain m) cs ->
  sound_lib L m -> (forall q, List.length q = m_nq m -> wf_data m (update L m q) /\ Forall (evaluates L m q) cs) -> one_entry_each So -> Forall (Forall loop_call) turns -> List.length q = m_nq m ->
  let prog := setup m lo hi cs in
  (exists tr qn, control_loop L So m dt prog turns q s tr qn /\ List.length tr = List.length turns /\ List.length qn = m_nq m) \/
  (exists ts os ts' tr q' pd, turns = ts ++ os :: ts' /\ control_loop L So m dt prog ts q s tr q' /\ List.length tr = List.length ts /\ List.length q' = m_nq m /\
     compiled_by (prog ++ calls_of ts ++ os) 0 pd /\ (forall s', solve L So m (tvec q') s' pd = Err NonFinite) /\ idle_barrier L (update L m q') pd).
Proof. exact (loop_outcome m lo hi cs L So dt turns q s). Qed.
Print Assumptions C96_loop_runs_or_a_barrier_is_idle.

Example C96_outcome_case : Forall constructed crowd /\ Forall (fun c => wf_arrays (c_at c)) crowd /\ NoDup (map nm crowd) /\ Forall (fun c => exists d, suits rig c d) crowd /\ Forall (plain rig) crowd /\
  forall q, List.length q = m_nq rig -> wf_data rig (update rig_lib rig q) /\ Forall (evaluates rig_lib rig q) crowd.
Proof. exact crowd_case. Qed.
(** The second outcome happens: joint limits that apply to no joint. *)
Example C96_idle_case : setup arm2 (tscalar (-1)) (tscalar 1) [empty_bar] = nan_prog /\ suits arm2 empty_bar 0 /\ compiled_by (nan_prog ++ calls_of [] ++ []) 0 nan_pd /\
  (forall L d, idle_barrier L d nan_pd) /\ forall L So q s, List.length q = 2%nat -> solve L So arm2 (tvec q) s nan_pd = Err NonFinite.
Proof. exact idle_case. Qed.

(** If every barrier is a joint barrier on at least one joint, the loop never fails. *)
Theorem C96_loop_never_fails m lo hi cs L So dt turns q s : sound_model m -> wf_tensor lo -> wf_tensor hi -> Forall constructed cs -> Forall (fun c => wf_arrays (c_at c)) cs ->
  limit_fits m lo -> limit_fits m hi -> NoDup (map nm cs) -> Forall (fun c => exists d, suits m c d) cs -> Forall (plain m) cs -> Forall (tame m) cs ->
  sound_lib L m -> (forall q, List.length q = m_nq m -> wf_data m (update L m q) /\ Forall (evaluates L m q) cs) -> one_entry_each So -> Forall (Forall loop_call) turns -> List.length q = m_nq m ->
  exists tr qn, control_loop L So m dt (setup m lo hi cs) turns q s tr qn /\ List.length tr = List.length turns /\ List.length qn = m_nq m.
Proof. exact (tame_loop m lo hi cs L So dt turns q s). Qed.
Print Assumptions C96_loop_never_fails.

(** The joint limits hold at every configuration of a loop whose solver is exact, and every
    velocity is the best admissible one, if each turn has an admissible velocity; and each
    turn has one if zero is within the velocity limits, the barriers are joint limits and no
    constraint is hard. *)
Theorem C96_loop_stays_within_limits m lo hi cs L So dt turns q s tr qn : sound_model m -> wf_tensor lo -> wf_tensor hi -> Forall constructed cs -> Forall (fun c => wf_arrays (c_at c)) cs ->
  limit_fits m lo -> limit_fits m hi -> NoDup (map nm cs) -> Forall (fun c => exists d, suits m c d) cs -> Forall (plain m) cs ->
  sound_lib L m -> (forall q, List.length q = m_nq m -> wf_data m (update L m q) /\ Forall (evaluates L m q) cs) -> keeps_scalars L m -> Forall (mild dt) cs -> 0 <= dt ->
  Forall (Forall loop_call) turns -> Forall (Forall keeps_limits) turns -> List.length q = m_nq m -> Forall (in_limits m q) cs ->
  control_loop L So m dt (setup m lo hi cs) turns q s tr qn -> Forall (exact_turn L So m) tr ->
  Forall (possible_turn L m) tr \/ (below_zero lo /\ above_zero hi /\ Forall (tame m) cs /\ Forall soft_component cs) ->
  Forall (in_limits m qn) cs /\ Forall (fun t => let '(q, pd, v) := t in Forall (in_limits m q) cs /\ best L (update L m q) pd v) tr.
Proof. exact (any_limits m lo hi cs L So dt turns q s tr qn). Qed.
Print Assumptions C96_loop_stays_within_limits.

(** Two turns of a loop that meets these conditions. *)
Example C96_limits_case : Forall (tame one) [half_pull; bar1] /\ Forall soft_component [half_pull; bar1] /\ (forall q, Forall (evaluates even_lib one q) [half_pull; bar1]) /\
  Forall (mild 1) [half_pull; bar1] /\ Forall (in_limits one [1]) [half_pull; bar1] /\
  exists tr, control_loop even_lib pull_solver one 1 (setup one (tscalar (-4)) (tscalar 4) [half_pull; bar1]) [[aim]; []] [1] [0] tr [1 / 2 + 1 * - (1 / 2 * (1 / 2))] /\ Forall (exact_turn even_lib pull_solver one) tr.
Proof.
  destruct pull_tame as (A & B & C). destruct pull_ready as (_ & _ & _ & _ & _ & _ & D & E). split; [exact A|]. split; [exact B|]. split; [exact C|]. split; [exact D|]. split; [exact E|].
  destruct pull_loop as (tr & F & G & _). exists tr. now split.
Qed.

(** The loop of examples/cassie_squat.py (not batched), on any robot that has the named bodies,
    a hinge or slide joint and equalities of supported kinds, whatever the numbers in it: it
    runs for any number of turns, and with an exact solver it stays in the joint range. *)
Theorem C96_cassie_squat m s1 s2 s3 i1 i2 i3 lo hi k1 k2 k3 g1 g2 g3 g4 g5 lm d1 ct tt' jb lf rf eq L So dt turns q s0 : sound_model m ->
  has_object m OBody s1 i1 -> has_object m OBody s2 i2 -> has_object m OBody s3 i3 -> (0 < n_scalar m)%nat -> Forall eq_supported (m_eq_type m) -> lo <= 0 -> 0 <= hi ->
  new_com_task "com_task" (tscalar k1) (tscalar g1) None lm (Some (mvec [1; 1; 1]%Z)) = Ok ct ->
  new_frame_task "torso_task" (tscalar k2) (tscalar g2) s1 OBody None lm (Some (mvec [0; 0; 0; 1; 1; 1]%Z)) = Ok tt' ->
  new_joint_barrier "jnt_range" (tscalar g3) None d1 None None None = Ok jb ->
  new_frame_task "left_foot_task" (tscalar k3) (tscalar g4) s2 OBody None lm (Some (mvec [1; 1; 1; 1; 0; 1]%Z)) = Ok lf ->
  new_frame_task "right_foot_task" (tscalar k3) (tscalar g4) s3 OBody None lm (Some (mvec [1; 1; 1; 1; 0; 1]%Z)) = Ok rf ->
  new_model_equality "equality_constraint" (tscalar g5) false None = Ok eq ->
  sound_lib L m -> keeps_scalars L m ->
  (forall q, List.length q = m_nq m -> wf_data m (update L m q) /\ List.length (flagged (d_efc_pos (update L m q)) (d_efc_is_equality (update L m q))) = eq_total m) ->
  one_entry_each So -> 0 <= dt -> 0 <= g3 -> g3 * dt <= 1 -> Forall (Forall loop_call) turns -> Forall (Forall keeps_limits) turns -> List.length q = m_nq m -> in_range m q ->
  exists tr qn, control_loop L So m dt (setup m (tscalar lo) (tscalar hi) [ct; tt'; jb; lf; rf; eq]) turns q s0 tr qn /\ List.length tr = List.length turns /\
  (Forall (exact_turn L So m) tr -> in_range m qn /\ Forall (fun t => let '(q, pd, v) := t in in_range m q /\ best L (update L m q) pd v) tr).
Proof. exact (cassie_loop m s1 s2 s3 i1 i2 i3 lo hi k1 k2 k3 g1 g2 g3 g4 g5 lm d1 ct tt' jb lf rf eq L So dt turns q s0). Qed.
Print Assumptions C96_cassie_squat.

(** On a robot with an equality, any number of turns. *)
Example C96_cassie_case n : eq_total rig = 3%nat /\ in_range rig [0; 0; 0; 0] /\ ~ in_range rig [0; 3; 0; 0] /\
  exists tr qn, control_loop rig_lib rest_solver rig (1 / 2) (setup rig (tscalar (-2)) (tscalar 2) squat) (repeat turn n) [0; 0; 0; 0] [0; 0; 0; 0] tr qn /\ List.length tr = n /\
  (Forall (exact_turn rig_lib rest_solver rig) tr -> in_range rig qn).
Proof. split; [reflexivity|]. split; [apply rig_range|]. split; [apply rig_range|]. exact (squat_runs n). Qed.
