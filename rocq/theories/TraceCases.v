(** Concrete programs for PropsTrace. *)
From Verif Require Import Base Lin Mjx Typing Component Problem SpecComponent SpecHistory SpecCollision SpecProblem SpecSettings SpecQP JaxTree SpecTrace Witness FitCases.
Open Scope nat_scope.

(** Tuning after [rig_prog]: a new target, gain, activity flag, distance and velocity limit. *)
Definition rig_tuning : list wop :=
  [WCop 0 (OpTargetPos (tvec [7; 8; 9]%R)); WCop 4 (OpGain (tscalar 5%R)); WCop 7 (OpAssign (assign_active false)); WCop 6 (OpAssign (assign_d_min 1%R)); WCompile 0; WVmax 0 (tscalar 3%R)].
(** A stack of two targets has another shape. *)
Definition rig_stack : list wop := [WCop 0 (OpTargetPos (mkT [2; 3] [7; 8; 9; 1; 2; 3]%R))].
Lemma rig_documented : documented rig_prog.
Proof.
  split; [exact rig_made|]. split.
  - repeat (constructor; [first [exact I|split; reflexivity]|]); constructor.
  - repeat (constructor; [first [exact I|reflexivity|split; [reflexivity|first [reflexivity|exact I]]]|]); constructor.
Qed.
Lemma rig_tunes : Forall tuning_step rig_tuning /\ Forall tuning_step rig_stack.
Proof.
  split; repeat (constructor; [first [exact I|reflexivity|now constructor]|]); constructor.
Qed.
Lemma trace_case : documented rig_prog /\ Forall tuning_step rig_tuning /\ Forall tuning_step rig_stack /\
  exists pd pd1 pd2, compiled_by rig_prog 0 pd /\ compiled_by (rig_prog ++ rig_tuning) 0 pd1 /\ compiled_by (rig_prog ++ rig_stack) 0 pd2 /\
    traced_once (data_object pd) (data_object pd1) /\ data_object pd <> data_object pd1 /\ ~ traced_once (data_object pd) (data_object pd2).
Proof.
  split; [exact rig_documented|]. split; [apply rig_tunes|]. split; [apply rig_tunes|].
  do 3 eexists. split; [vm_compute; reflexivity|]. split; [vm_compute; reflexivity|]. split; [vm_compute; reflexivity|].
  split; [unfold traced_once; vm_compute; reflexivity|]. split.
  - intros H. injection H. intros. discriminate.
  - unfold traced_once. vm_compute. discriminate.
Qed.
