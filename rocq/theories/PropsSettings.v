(** C81: settings are independent registers. *)
From Verif Require Import Base Lin Mjx Typing Component SpecComponent SpecJoint SpecHistory SpecSettings Witness CompThms2 SettingThms SettingCases.
Open Scope nat_scope.

(** ** What the constructors store *)
Theorem C81_com_task_starts name cost gain gf lm mk c : new_com_task name cost gain gf lm mk = Ok c ->
  starts name gain gf c /\ class_of c = KCom /\ cost_of c = Some cost /\ extra_of c = Some lm /\ target_of c = Some (tvec (repeat 0%R (n_sel 3 mk))).
Proof. exact (start_com name cost gain gf lm mk c). Qed.
Print Assumptions C81_com_task_starts.
Theorem C81_position_task_starts name cost gain on ty gf lm mk c : new_position_task name cost gain on ty gf lm mk = Ok c ->
  starts name gain gf c /\ class_of c = KPos on ty /\ cost_of c = Some cost /\ extra_of c = Some lm /\ target_of c = Some (tvec (repeat 0%R (n_sel 3 mk))).
Proof. exact (start_pos name cost gain on ty gf lm mk c). Qed.
Print Assumptions C81_position_task_starts.
(** The initial target frame is the identity: unit quaternion w=1, zero translation. *)
Theorem C81_frame_task_starts name cost gain on ty gf lm mk c : new_frame_task name cost gain on ty gf lm mk = Ok c ->
  starts name gain gf c /\ class_of c = KFrame on ty /\ cost_of c = Some cost /\ extra_of c = Some lm /\ target_of c = Some (tvec [1; 0; 0; 0; 0; 0; 0]%R).
Proof. exact (start_frame name cost gain on ty gf lm mk c). Qed.
Print Assumptions C81_frame_task_starts.
Theorem C81_joint_task_starts name cost gain gf lm mk c : new_joint_task name cost gain gf lm mk = Ok c ->
  starts name gain gf c /\ class_of c = KJoint mk /\ cost_of c = Some cost /\ extra_of c = Some lm /\ target_of c = None.
Proof. exact (start_joint name cost gain gf lm mk c). Qed.
Print Assumptions C81_joint_task_starts.
Theorem C81_position_barrier_starts name gain on ty lo hi lts gf sdg mk c : new_position_barrier name gain on ty lo hi lts gf sdg mk = Ok c -> exists lt, from_str lts = Ok lt /\
  starts name gain gf c /\ class_of c = KPosBarrier on ty lt /\ extra_of c = Some sdg /\
  p_min_of c = Some (match lo, lt with Some t, (LMin | LBoth) => spread (n_axes mk) t | _, _ => tvec (repeat 0%R (n_axes mk)) end) /\
  p_max_of c = Some (match hi, lt with Some t, (LMax | LBoth) => spread (n_axes mk) t | _, _ => tvec (repeat 0%R (n_axes mk)) end).
Proof. exact (start_pbar name gain on ty lo hi lts gf sdg mk c). Qed.
Print Assumptions C81_position_barrier_starts.
Theorem C81_joint_barrier_starts name gain gf sdg lo hi mk c : new_joint_barrier name gain gf sdg lo hi mk = Ok c ->
  starts name gain gf c /\ class_of c = KJointBarrier mk /\ extra_of c = Some sdg /\ q_min_of c = lo /\ q_max_of c = hi.
Proof. exact (start_jbar name gain gf sdg lo hi mk c). Qed.
Print Assumptions C81_joint_barrier_starts.
Theorem C81_self_collision_starts name gain gf sdg dm bs er n c : new_self_collision name gain gf sdg dm bs er n = Ok c ->
  starts name gain gf c /\ class_of c = KSelf dm er /\ extra_of c = Some sdg.
Proof. exact (start_self name gain gf sdg dm bs er n c). Qed.
Print Assumptions C81_self_collision_starts.
Theorem C81_equality_starts name gain hard soft c : new_model_equality name gain hard soft = Ok c -> starts name gain None c /\ class_of c = KEquality true hard soft.
Proof. exact (start_equality name gain hard soft c). Qed.
Print Assumptions C81_equality_starts.
(** User-defined classes that pass their arguments on. *)
Theorem C81_custom_task_starts name cost gain gf lm mk d f c : new_custom_task name cost gain gf lm mk d f = Ok c ->
  starts name gain gf c /\ class_of c = KCustomT f /\ cost_of c = Some cost /\ extra_of c = Some lm /\ a_dim (c_at c) = d.
Proof. exact (start_custom_task name cost gain gf lm mk d f c). Qed.
Print Assumptions C81_custom_task_starts.
Theorem C81_custom_barrier_starts name gain gf sdg mk d f c : new_custom_barrier name gain gf sdg mk d f = Ok c ->
  starts name gain gf c /\ class_of c = KCustomB f /\ extra_of c = Some sdg /\ a_dim (c_at c) = d.
Proof. exact (start_custom_barrier name gain gf sdg mk d f c). Qed.
Print Assumptions C81_custom_barrier_starts.
Theorem C81_custom_constraint_starts name gain mk hard soft d f c : new_custom_constraint name gain mk hard soft d f = Ok c ->
  starts name gain None c /\ class_of c = KCustomC true hard soft f /\ constraint_of c = Some (true, hard, soft) /\ a_dim (c_at c) = d.
Proof. exact (start_custom_constraint name gain mk hard soft d f c). Qed.
Print Assumptions C81_custom_constraint_starts.

(** ** What a history leaves *)
Theorem C81_gain c os : Forall api_op os -> gain_of (history os c) = last_accepted asks_gain os c (gain_of c).
Proof. exact (gain_register c os). Qed.
Print Assumptions C81_gain.
Theorem C81_cost c os : Forall api_op os -> cost_of (history os c) = last_accepted asks_cost os c (cost_of c).
Proof. exact (cost_register c os). Qed.
Print Assumptions C81_cost.
Theorem C81_target c os : Forall api_op os -> Forall no_array_frame os -> target_of c <> None -> target_of (history os c) = last_accepted asks_target os c (target_of c).
Proof. exact (target_register c os). Qed.
Print Assumptions C81_target.
Theorem C81_position_limits name gain on ty lo hi lts gf sdg mk c os : new_position_barrier name gain on ty lo hi lts gf sdg mk = Ok c -> Forall api_op os ->
  exists lt, from_str lts = Ok lt /\ p_min_of (history os c) = last_accepted (asks_p_min lt (n_axes mk)) os c (p_min_of c) /\ p_max_of (history os c) = last_accepted (asks_p_max lt (n_axes mk)) os c (p_max_of c).
Proof. exact (p_register name gain on ty lo hi lts gf sdg mk c os). Qed.
Print Assumptions C81_position_limits.
Theorem C81_joint_limits c os : Forall api_op os -> q_min_of c <> None -> q_max_of c <> None ->
  q_min_of (history os c) = last_accepted asks_q_min os c (q_min_of c) /\ q_max_of (history os c) = last_accepted asks_q_max os c (q_max_of c).
Proof. exact (q_register c os). Qed.
Print Assumptions C81_joint_limits.
Theorem C81_fixed_settings c os : Forall api_op os ->
  a_name (c_at (history os c)) = a_name (c_at c) /\ a_gain_fn (c_at (history os c)) = a_gain_fn (c_at c) /\ class_of (history os c) = class_of c /\ extra_of (history os c) = extra_of c.
Proof. exact (fixed_settings c os). Qed.
Print Assumptions C81_fixed_settings.

(** ** What the solver receives *)
Theorem C81_compiled_settings c os j : constructed c -> wf_arrays (c_at c) -> Forall wf_call os -> compiles (history os c) j ->
  exists d, j_dim j = Z.of_nat d /\ gain_means (last_accepted asks_gain os c (gain_of c)) d (j_gain j) /\ j_gain_fn j = a_gain_fn (c_at c) /\
  match j_ext j with
  | JTask W lm _ => exists t, last_accepted asks_cost os c (cost_of c) = Some t /\ cost_means t d W /\ extra_of c = Some lm
  | JBarrier s _ => extra_of c = Some s
  | JConstraint a h W _ => exists soft, constraint_of c = Some (a, h, soft) /\ cost_means (match soft with Some t => t | None => tscalar 100 end) d W
  end.
Proof. exact (compiled_settings c os j). Qed.
Theorem C81_compiled_target c os j : constructed c -> Forall api_op os -> Forall no_array_frame os -> target_of c <> None -> compiles (history os c) j ->
  compiled_target j = last_accepted asks_target os c (target_of c).
Proof. exact (compiled_targets c os j). Qed.
Theorem C81_compiled_position_limits name gain on ty lo hi lts gf sdg mk c os j : new_position_barrier name gain on ty lo hi lts gf sdg mk = Ok c -> Forall api_op os -> compiles (history os c) j ->
  exists lt, from_str lts = Ok lt /\ compiled_lower j = last_accepted (asks_p_min lt (n_axes mk)) os c (p_min_of c) /\ compiled_upper j = last_accepted (asks_p_max lt (n_axes mk)) os c (p_max_of c).
Proof. exact (compiled_p name gain on ty lo hi lts gf sdg mk c os j). Qed.
Theorem C81_compiled_joint_limits c os j : constructed c -> Forall api_op os -> q_min_of c <> None -> q_max_of c <> None -> compiles (history os c) j ->
  compiled_lower j = last_accepted asks_q_min os c (q_min_of c) /\ compiled_upper j = last_accepted asks_q_max os c (q_max_of c).
Proof. exact (compiled_q c os j). Qed.
Theorem C81_compiled_class c os j : constructed c -> Forall api_op os -> compiles (history os c) j -> compiled_class (class_of c) j.
Proof. exact (compiled_classes c os j). Qed.
Print Assumptions C81_compiled_class.
Print Assumptions C81_compiled_settings.
Print Assumptions C81_compiled_target.
Print Assumptions C81_compiled_position_limits.
Print Assumptions C81_compiled_joint_limits.

(** A history with accepted and rejected updates: the rejected ones (a target of
    length 2, a gain matrix) leave no trace. *)
Example C81_case : constructed demo_task /\ wf_arrays (c_at demo_task) /\ Forall wf_call setting_ops /\ Forall api_op setting_ops /\ Forall no_array_frame setting_ops /\
  (exists j, compiles (history setting_ops demo_task) j /\ compiled_target j = Some (tvec [4; 5; 6]%R)) /\
  last_accepted asks_target setting_ops demo_task (target_of demo_task) = Some (tvec [4; 5; 6]%R) /\
  last_accepted asks_gain setting_ops demo_task (gain_of demo_task) = tscalar 7%R /\
  last_accepted asks_cost setting_ops demo_task (cost_of demo_task) = Some (tvec [1; 2; 3]%R).
Proof. exact setting_case. Qed.
Example C81_limit_case : exists c, new_position_barrier "box" (tscalar 1) "tip" OBody (Some (tscalar 1%R)) None "min" None 0 None = Ok c /\ Forall api_op limit_ops /\
  last_accepted (asks_p_min LMin 3) limit_ops c (p_min_of c) = Some (tvec [2; 2; 2]%R) /\ last_accepted (asks_p_max LMin 3) limit_ops c (p_max_of c) = Some (tvec [0; 0; 0]%R) /\
  exists j, compiles (history limit_ops c) j.
Proof. exact limit_case. Qed.
(** A constraint of user code with its own soft cost. *)
Example C81_constraint_case : exists c c', new_custom_constraint "lock" (tscalar 2) None false (Some (tvec [3; 4]%R)) 2 (fun d => firstn 2 (d_qpos d)) = Ok c /\ wf_arrays (c_at c) /\
  Forall wf_call [OpModel arm2] /\ c' = history [OpModel arm2] c /\ exists j, compiles c' j /\ j_dim j = 2%Z /\ j_gain j = [2%R; 2%R].
Proof.
  eexists _, _. split; [reflexivity|]. split; [split; [exact eq_refl|exact eq_refl]|]. split; [repeat constructor|]. split; [reflexivity|].
  eexists. split; [unfold compiles; reflexivity|]. split; reflexivity.
Qed.
