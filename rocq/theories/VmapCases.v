(** A concrete batch for PropsVmap. *)
From Verif Require Import Base Lin Mjx Typing Component Problem SpecComponent SpecJoint SpecHistory SpecValue SpecProblem SpecQP SpecFit SpecTrace SpecSetup JaxTree SpecJaxTree SpecBatch SpecVmap.
From Verif Require Import Witness FitCases SetupFacts2 SetupFacts5 SetupCases VmapFacts.
Open Scope nat_scope.

Definition two_poses : tensor := mkT [2; 7] [1; 2; 3; 1; 0; 0; 0; 4; 5; 6; 0; 1; 0; 0]%R.
Definition ee_prog : list wop := setup rig (tscalar (-100)%R) (tscalar 100%R) [ee_task "tip"; jnt_range] ++ turn.
Lemma vmap_case : wf_tensor two_poses /\ t_shape two_poses = [2; 7] /\ batch 2 0 [(0, "ee_task"%string, OpTargetFrame (FArr two_poses))] (state ee_prog) /\
  vectors 2 (OpTargetFrame (FArr two_poses)) /\
  exists pd tm tm', compiled_by (ee_prog ++ [WCop 0 (OpTargetFrame (FArr two_poses))]) 0 pd /\
    fst (set_vmap_dimension 0 (state (ee_prog ++ [WCop 0 (OpTargetFrame (FArr two_poses))]))) = Ok tm /\
    set_axes [["components"; "ee_task"; "target_frame"]%string] tm = Ok tm' /\
    at_path ["components"; "ee_task"; "target_frame"; "wxyz_xyz"]%string (sample (slice 1) tm' (data_object (under_jit pd))) = Some (PArr (tvec [0; 1; 0; 0; 4; 5; 6]%R)).
Proof.
  split; [reflexivity|]. split; [reflexivity|].
  destruct setup_case as (Hm & Hc & Hw & Hp & Hn & Hs & Hl & _ & _ & _ & Ht & _). 
  assert (B := frame_batch rig (tscalar (-100)%R) (tscalar 100%R) [ee_task "tip"; jnt_range] turn 2 two_poses 0 (ee_task "tip") _ _ _ _ Hm eq_refl eq_refl Hc Hw Hl (or_introl eq_refl) Hn Hs Ht eq_refl eq_refl eq_refl eq_refl).
  destruct B as [B1 B2]. split; [exact B1|]. split; [exact (Forall_inv B2)|].
  do 3 eexists. split; [vm_compute; reflexivity|]. split; [vm_compute; reflexivity|]. split; [vm_compute; reflexivity|]. vm_compute. reflexivity.
Qed.
