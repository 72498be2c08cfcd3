(** Concrete histories of settings. *)
From Verif Require Import Base Lin Mjx Typing Component SpecComponent SpecJoint SpecHistory SpecSettings Witness CompThms2 SettingThms.
Open Scope nat_scope.

Definition setting_ops : list cop :=
  [OpTargetPos (tvec [1; 1; 1]%R); OpModel arm2; OpReadJax; OpGain (tscalar 7%R); OpGain (mkT [1; 1] [9%R]); OpTargetPos (tvec [4; 5; 6]%R); OpReadMask; OpTargetPos (tvec [8; 8]%R)].
Lemma setting_case : constructed demo_task /\ wf_arrays (c_at demo_task) /\ Forall wf_call setting_ops /\ Forall api_op setting_ops /\ Forall no_array_frame setting_ops /\
  (exists j, compiles (history setting_ops demo_task) j /\ compiled_target j = Some (tvec [4; 5; 6]%R)) /\
  last_accepted asks_target setting_ops demo_task (target_of demo_task) = Some (tvec [4; 5; 6]%R) /\
  last_accepted asks_gain setting_ops demo_task (gain_of demo_task) = tscalar 7%R /\
  last_accepted asks_cost setting_ops demo_task (cost_of demo_task) = Some (tvec [1; 2; 3]%R).
Proof.
  split; [exact demo_task_made|]. split; [split; reflexivity|]. split; [repeat constructor|]. split; [repeat constructor|]. split; [repeat constructor|].
  split; [eexists; split; vm_compute; reflexivity|]. split; [vm_compute; reflexivity|]. split; vm_compute; reflexivity.
Qed.
Definition limit_ops : list cop := [OpPMin (tvec [5; 6]%R); OpModel arm2; OpPMax (tscalar 9%R); OpPMin (tscalar 2%R)].
Lemma limit_case : exists c, new_position_barrier "box" (tscalar 1) "tip" OBody (Some (tscalar 1%R)) None "min" None 0 None = Ok c /\ Forall api_op limit_ops /\
  last_accepted (asks_p_min LMin 3) limit_ops c (p_min_of c) = Some (tvec [2; 2; 2]%R) /\ last_accepted (asks_p_max LMin 3) limit_ops c (p_max_of c) = Some (tvec [0; 0; 0]%R) /\
  exists j, compiles (history limit_ops c) j.
Proof.
  eexists. split; [vm_compute; reflexivity|]. split; [repeat constructor|]. split; [vm_compute; reflexivity|]. split; [vm_compute; reflexivity|]. eexists. vm_compute. reflexivity.
Qed.
