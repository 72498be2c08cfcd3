(** C93: a vmapped control loop is one control loop per lane. *)
From Verif Require Import Base Lin Mjx Typing Component Problem SpecComponent SpecJoint SpecHistory SpecCollision SpecShape SpecContact SpecValue SpecProblem SpecQP SpecFit SpecTrace SpecSetup JaxTree SpecJaxTree SpecBatch SpecVmap.
From Verif Require Import JaxComponents LocalIK FitCases SetupFacts2 SetupFacts5 SetupCases VmapFacts VmapCases.
Open Scope nat_scope.

(** After a setup with suitable components and any loop calls, stacks of targets and
    bounds that the setters accept compile; the template of the problem can be given
    axis 0 at their places; and lane [i] of the compiled data, as the vmapped solver
    sees it, is the problem compiled after the same calls with row [i] only. *)
Theorem C93_batches_compile m lo hi cs os N ks : sound_model m -> wf_tensor lo -> wf_tensor hi -> Forall constructed cs -> Forall (fun c => wf_arrays (c_at c)) cs ->
  limit_fits m lo -> limit_fits m hi -> NoDup (map (fun c => a_name (c_at c)) cs) -> Forall (fun c => exists d, suits m c d) cs -> Forall steering os ->
  let prog := setup m lo hi cs ++ os in batch N 0 ks (state prog) ->
  exists pd t t', compiled_by (prog ++ map as_step ks) 0 pd /\ fst (set_vmap_dimension 0 (state (prog ++ map as_step ks))) = Ok t /\ set_axes (map place ks) t = Ok t' /\
    forall i, i < N -> exists pd', compiled_by (prog ++ map (as_row i) ks) 0 pd' /\ sample (slice i) t' (data_object (under_jit pd)) = data_object (under_jit pd').
Proof. exact (batched_loop m lo hi cs os N ks). Qed.
Print Assumptions C93_batches_compile.

(** If rows are plain vectors, every lane is solved as the problem of its row would be:
    both QPs assemble, with the same solutions, or a barrier's Jacobian vanishes there. *)
Theorem C93_lanes_solve m lo hi cs os N ks : sound_model m -> wf_tensor lo -> wf_tensor hi -> Forall constructed cs -> Forall (fun c => wf_arrays (c_at c)) cs ->
  limit_fits m lo -> limit_fits m hi -> NoDup (map (fun c => a_name (c_at c)) cs) -> Forall (fun c => exists d, suits m c d) cs -> Forall (plain m) cs ->
  Forall steering os -> Forall proper os -> Forall plain_call os ->
  let prog := setup m lo hi cs ++ os in batch N 0 ks (state prog) -> Forall (fun k => vectors N (snd k)) ks ->
  exists pd t t', compiled_by (prog ++ map as_step ks) 0 pd /\ fst (set_vmap_dimension 0 (state (prog ++ map as_step ks))) = Ok t /\ set_axes (map place ks) t = Ok t' /\
  forall i, i < N -> exists pd', compiled_by (prog ++ map (as_row i) ks) 0 pd' /\ sample (slice i) t' (data_object (under_jit pd)) = data_object (under_jit pd') /\
  forall L So q v, sound_lib L m -> t_shape q = [m_nq m] -> let d := update L m (t_data q) in wf_data m d ->
    (forall j, In j (comps_of pd') -> needs_care j -> accepted L d j) ->
    (exists Q Q', assemble L m pd' d = Ok Q /\ solve L So m q v pd' = Ok (So Q, sol_primal (So Q)) /\
       assemble L m (under_jit pd') d = Ok Q' /\ solve L So m q v (under_jit pd') = Ok (So Q', sol_primal (So Q')) /\
       forall x, optimal (m_nv m) Q x <-> optimal (m_nv m) Q' x) \/
    (solve L So m q v pd' = Err NonFinite /\ exists j J, In j (comps_of pd') /\ is_barrier j = true /\ jacobian L j d = Ok J /\ frob2 J = 0%R /\
       ((exists s l h x, j_ext j = JBarrier s (JBJoint l h x)) -> j_dim j = 0%Z)).
Proof. exact (batched_lanes m lo hi cs os N ks). Qed.
Print Assumptions C93_lanes_solve.

(** A stack of poses is accepted by every frame task of the problem at any time. *)
Theorem C93_pose_stacks_accepted m lo hi cs os N t k c cost lm o t0 : sound_model m -> wf_tensor lo -> wf_tensor hi -> Forall constructed cs -> Forall (fun c => wf_arrays (c_at c)) cs ->
  limit_fits m lo -> limit_fits m hi -> NoDup (map (fun c => a_name (c_at c)) cs) -> Forall (fun c => exists d, suits m c d) cs -> Forall steering os ->
  nth_error cs k = Some c -> a_ext (c_at c) = XTask cost lm (TFrame o t0) -> wf_tensor t -> t_shape t = [N; 7] ->
  let ks := [(k, a_name (c_at c), OpTargetFrame (FArr t))] in
  batch N 0 ks (state (setup m lo hi cs ++ os)) /\ Forall (fun k => vectors N (snd k)) ks.
Proof. exact (frame_batch m lo hi cs os N t k c cost lm o t0). Qed.
Print Assumptions C93_pose_stacks_accepted.

(** The README problem in a batch, as in examples/local_ik_vmapped_output.py: on every
    robot with the named body and a hinge or slide, every lane is always solved. *)
Theorem C93_vmapped_readme_loop m s i0 lo hi cost g1 g2 lm d0 ft jb os N t : sound_model m -> has_object m OBody s i0 -> 0 < n_scalar m ->
  wf_tensor lo -> wf_tensor hi -> limit_fits m lo -> limit_fits m hi ->
  new_frame_task "ee_task" (tscalar cost) (tscalar g1) s OBody None lm None = Ok ft ->
  new_joint_barrier "jnt_range" (tscalar g2) None d0 None None None = Ok jb ->
  Forall steering os -> Forall proper os -> Forall plain_call os -> wf_tensor t -> t_shape t = [N; 7] ->
  let prog := setup m lo hi [ft; jb] ++ os in
  exists pd tm tm', compiled_by (prog ++ [WCop 0 (OpTargetFrame (FArr t))]) 0 pd /\
    fst (set_vmap_dimension 0 (state (prog ++ [WCop 0 (OpTargetFrame (FArr t))]))) = Ok tm /\ set_axes [["components"; "ee_task"; "target_frame"]%string] tm = Ok tm' /\
  forall i, i < N -> exists pd', compiled_by (prog ++ [WCop 0 (OpTargetFrame (FArr (row i t)))]) 0 pd' /\ sample (slice i) tm' (data_object (under_jit pd)) = data_object (under_jit pd') /\
  forall L So q v, sound_lib L m -> t_shape q = [m_nq m] -> let d := update L m (t_data q) in wf_data m d ->
    exists Q Q', assemble L m pd' d = Ok Q /\ solve L So m q v pd' = Ok (So Q, sol_primal (So Q)) /\
       assemble L m (under_jit pd') d = Ok Q' /\ solve L So m q v (under_jit pd') = Ok (So Q', sol_primal (So Q')) /\
       forall x, optimal (m_nv m) Q x <-> optimal (m_nv m) Q' x.
Proof. exact (readme_lanes m s i0 lo hi cost g1 g2 lm d0 ft jb os N t). Qed.
Print Assumptions C93_vmapped_readme_loop.

(** Two poses, xyz first as the setter takes them; lane 1 holds the second, quaternion
    first.  The other hypotheses are met in [C92_setup_case] and [C92_readme_case]. *)
Example C93_case : wf_tensor two_poses /\ t_shape two_poses = [2; 7] /\ batch 2 0 [(0, "ee_task"%string, OpTargetFrame (FArr two_poses))] (state ee_prog) /\
  vectors 2 (OpTargetFrame (FArr two_poses)) /\
  exists pd tm tm', compiled_by (ee_prog ++ [WCop 0 (OpTargetFrame (FArr two_poses))]) 0 pd /\
    fst (set_vmap_dimension 0 (state (ee_prog ++ [WCop 0 (OpTargetFrame (FArr two_poses))]))) = Ok tm /\
    set_axes [["components"; "ee_task"; "target_frame"]%string] tm = Ok tm' /\
    at_path ["components"; "ee_task"; "target_frame"; "wxyz_xyz"]%string (sample (slice 1) tm' (data_object (under_jit pd))) = Some (PArr (tvec [0; 1; 0; 0; 4; 5; 6]%R)).
Proof. exact vmap_case. Qed.
