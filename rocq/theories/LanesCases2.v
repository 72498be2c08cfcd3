(** A concrete batched loop for PropsLanes. *)
From Verif Require Import Base Lin LinFacts Mjx Typing Component Problem SpecComponent SpecJoint SpecHistory SpecValue SpecProblem SpecQP SpecFit SpecTrace SpecSetup Conf JaxComponents LocalIK SpecMotion SpecLoop SpecSolve SpecClosed JaxTree SpecJaxTree SpecBatch SpecVmap SpecLanes.
From Verif Require Import FitCases SetupCases VmapCases MotionCases DescentCases ClosedCases LanesCases.
Open Scope nat_scope.

Definition other_poses : tensor := mkT [2; 7] [7; 8; 9; 1; 0; 0; 0; -1; -2; -3; 0; 0; 1; 0]%R.
Definition lanes_prog : list wop := setup rig (tscalar (-100)%R) (tscalar 100%R) [ee_task "tip"; jnt_range].
Definition lanes_turns : list (list call) := map (pose_turn 0 "ee_task") [two_poses; other_poses].
Definition ee_places : list (list string) := [["components"; "ee_task"; "target_frame"]%string].
Lemma lanes_stacked : stacked 2 ee_places (lanes_prog ++ [WCompile 0]) lanes_turns.
Proof.
  destruct setup_case as (Hm & Hc & Hw & _ & Hn & Hs & Hl & _).
  apply (poses_stacked rig (tscalar (-100)%R) (tscalar 100%R) [ee_task "tip"; jnt_range] 2 0 (ee_task "tip") (tscalar 1%R) 0%R (mkO "tip" OBody (-1)) (tvec se3_identity) [two_poses; other_poses]
    Hm eq_refl eq_refl Hc Hw Hl (or_introl eq_refl) Hn Hs eq_refl eq_refl ltac:(repeat constructor) [WCompile 0] ltac:(repeat constructor)).
Qed.
(** In the second turn the lanes see their own poses through the template made before the loop. *)
Lemma lanes_poses : exists t tm pd, fst (set_vmap_dimension 0 (state lanes_prog)) = Ok t /\ set_axes ee_places t = Ok tm /\
  compiled_by ((lanes_prog ++ [WCompile 0]) ++ map as_step (nth 0 lanes_turns []) ++ [WCompile 0] ++ map as_step (nth 1 lanes_turns [])) 0 pd /\
  at_path ["components"; "ee_task"; "target_frame"; "wxyz_xyz"]%string (sample (slice 0) tm (data_object (under_jit pd))) = Some (PArr (tvec [1; 0; 0; 0; 7; 8; 9]%R)) /\
  at_path ["components"; "ee_task"; "target_frame"; "wxyz_xyz"]%string (sample (slice 1) tm (data_object (under_jit pd))) = Some (PArr (tvec [0; 0; 1; 0; -1; -2; -3]%R)).
Proof. do 3 eexists. split; [vm_compute; reflexivity|]. split; [vm_compute; reflexivity|]. split; [vm_compute; reflexivity|]. split; vm_compute; reflexivity. Qed.
Definition two_starts : nat -> vec := fun i => match i with 0 => [0; 0; 0; 0]%R | _ => [1 / 2; 0; 0; 0]%R end.
Lemma lanes_run_case : exists t tm tr qn, fst (set_vmap_dimension 0 (state lanes_prog)) = Ok t /\ set_axes ee_places t = Ok tm /\
  vmapped_loop even_lib pull_solver rig (1 / 100) 2 tm (lanes_prog ++ [WCompile 0]) lanes_turns two_starts (fun _ => [0; 0; 0; 0]%R) tr qn /\
  forall i, i < 2 -> List.length (qn i) = m_nq rig /\
    (in_range rig (two_starts i) -> Forall (exact_turn even_lib pull_solver rig) (lane i tr) -> in_range rig (qn i) /\ Forall (fun t => in_range rig (fst (fst t) i)) tr).
Proof.
  destruct setup_case as (Hm & Hc & Hw & _ & Hn & Hs & Hl & _).
  apply (readme_batches rig "tip" 4 (tscalar (-100)%R) (tscalar 100%R) 1 20 10 0 0 (ee_task "tip") jnt_range even_lib pull_solver (1 / 100) 2 [two_poses; other_poses] two_starts (fun _ => [0; 0; 0; 0]%R) Hm rig_tip ltac:(repeat constructor) eq_refl eq_refl Hl (or_introl eq_refl)).
  - repeat constructor; cbn; lra.
  - repeat constructor; cbn; lra.
  - apply ee_task_new.
  - apply jnt_range_new.
  - lra.
  - lra.
  - lra.
  - apply even_sound.
  - apply even_keeps.
  - intros q. apply even_wf.
  - exact pull_one.
  - repeat constructor.
  - discriminate.
  - intros i Hi. destruct i as [|[|i]]; reflexivity.
Qed.
