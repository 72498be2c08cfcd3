(** C92: exactly which components and settings can be used, and what a documented
    program may rely on. *)
From Verif Require Import Base Lin Mjx Typing Component Problem SpecComponent SpecJoint SpecHistory SpecCollision SpecShape SpecContact SpecValue SpecProblem SpecQP SpecFit SpecTrace SpecSetup.
From Verif Require Import JaxComponents LocalIK FitCases SetupFacts2 SetupFacts3 SetupFacts4 SetupFacts5 SetupCases.
Open Scope nat_scope.

(** A component after any documented calls can be bound to a robot and compiled to [d]
    entries exactly if its settings suit the robot: gain and cost scalars or of matching
    shape, named objects present, masks one flag per hinge and slide, bodies known,
    supported equalities. *)
Theorem C92_usable_iff_suits m c os d : constructed c -> wf_arrays (c_at c) -> Forall wf_call os -> sound_model m -> bodies_known m (history os c) ->
  (usable m (history os c) d <-> suits m (history os c) d).
Proof. exact (usable_history m c os d). Qed.
Print Assumptions C92_usable_iff_suits.

Example C92_usable_case :
  suits rig (ee_task "tip") 6 /\ usable rig (ee_task "tip") 6 /\ (forall d, ~ suits rig (ee_task "nose") d) /\
  (forall d, ~ suits rig (history [OpGain (tvec [1; 2]%R)] (ee_task "tip")) d) /\ (forall d, ~ usable rig (ee_task "nose") d) /\
  constructed (ee_task "tip") /\ wf_arrays (c_at (ee_task "tip")) /\ bodies_known rig (ee_task "tip").
Proof. exact suits_case. Qed.

(** In every program, [compile] succeeds exactly if no registered component lacks
    anything. *)
Theorem C92_compile_iff_complete os pi p : Forall legal os -> Forall proper os -> problem_of (state os) pi p ->
  ((exists pd, compiled_by os pi pd) <->
   forall n i, In (n, i) (p_comps p) -> exists c d, nth_error (w_comps (state os)) i = Some c /\ complete c d).
Proof. exact (compile_complete os pi p). Qed.
Print Assumptions C92_compile_iff_complete.

(** Making a problem, making components, adding them all and compiling succeeds
    exactly if the velocity limits fit, the names differ and every component suits. *)
Theorem C92_setup_succeeds_iff m lo hi cs : sound_model m -> wf_tensor lo -> wf_tensor hi -> Forall constructed cs -> Forall (fun c => wf_arrays (c_at c)) cs -> Forall (bodies_known m) cs ->
  (runs (setup m lo hi cs) empty_world /\ (exists pd, compiled_by (setup m lo hi cs) 0 pd) <->
   limit_fits m lo /\ limit_fits m hi /\ NoDup (map (fun c => a_name (c_at c)) cs) /\ Forall (fun c => exists d, suits m c d) cs).
Proof. exact (setup_iff m lo hi cs). Qed.
Print Assumptions C92_setup_succeeds_iff.

(** And then the compiled data lists, in order, the components as bound, under their
    names and with the sizes foretold, and the velocity limits as given. *)
Theorem C92_setup_result m lo hi cs : sound_model m -> wf_tensor lo -> wf_tensor hi -> Forall constructed cs -> Forall (fun c => wf_arrays (c_at c)) cs ->
  limit_fits m lo -> limit_fits m hi -> NoDup (map (fun c => a_name (c_at c)) cs) -> Forall (fun c => exists d, suits m c d) cs ->
  tidy m (setup m lo hi cs) /\
  exists pd, compiled_by (setup m lo hi cs) 0 pd /\ jd_model pd = m /\ limit_means (m_nv m) lo (jd_vmin pd) /\ limit_means (m_nv m) hi (jd_vmax pd) /\
    Forall2 (fun c e => fst e = a_name (c_at c) /\ compiles (snd (update_model m c)) (snd e) /\ exists d, suits m c d /\ j_dim (snd e) = Z.of_nat d) cs (jd_comps pd).
Proof. exact (setup_result m lo hi cs). Qed.
Print Assumptions C92_setup_result.

Example C92_setup_case : sound_model rig /\ Forall constructed [ee_task "tip"; jnt_range] /\ Forall (fun c => wf_arrays (c_at c)) [ee_task "tip"; jnt_range] /\
  Forall (plain rig) [ee_task "tip"; jnt_range] /\ NoDup (map (fun c => a_name (c_at c)) [ee_task "tip"; jnt_range]) /\ Forall (fun c => exists d, suits rig c d) [ee_task "tip"; jnt_range] /\
  limit_fits rig (tscalar (-100)%R) /\ runs (setup rig (tscalar (-100)%R) (tscalar 100%R) [ee_task "tip"; jnt_range]) empty_world /\
  ~ runs (setup rig (tscalar (-100)%R) (tscalar 100%R) [ee_task "tip"; ee_task "tip"]) empty_world /\
  ~ runs (setup rig (tscalar (-100)%R) (tvec [1; 2; 3]%R) [ee_task "tip"]) empty_world /\
  Forall steering turn /\ Forall proper turn /\ Forall plain_call turn.
Proof. exact setup_case. Qed.

(** After the setup and any setters, look-ups and compilations, whether the next
    compilation succeeds depends only on the present gains and costs. *)
Theorem C92_compile_after_settings m lo hi cs os : sound_model m -> wf_tensor lo -> wf_tensor hi -> Forall constructed cs -> Forall (fun c => wf_arrays (c_at c)) cs ->
  limit_fits m lo -> limit_fits m hi -> NoDup (map (fun c => a_name (c_at c)) cs) -> Forall (fun c => exists d, suits m c d) cs -> Forall tuning_step os ->
  ((exists pd, compiled_by (setup m lo hi cs ++ os) 0 pd) <->
   Forall2 (fun c c' => exists d, suits m c d /\ weights_fit c' d) cs (w_comps (state (setup m lo hi cs ++ os)))).
Proof. exact (settings_iff m lo hi cs os). Qed.
Print Assumptions C92_compile_after_settings.

Example C92_settings_case : let prog := setup rig (tscalar (-100)%R) (tscalar 100%R) [ee_task "tip"; jnt_range] in
  Forall tuning_step [WCop 0 (OpGain (tvec [1; 2]%R))] /\ Forall tuning_step [WCop 0 (OpCost (tvec [1; 2; 3; 4; 5; 6]%R))] /\
  fst (step (WCompile 0) (state (prog ++ [WCop 0 (OpGain (tvec [1; 2]%R))]))) = Err ValueError /\
  exists pd, compiled_by (prog ++ [WCop 0 (OpCost (tvec [1; 2; 3; 4; 5; 6]%R))]) 0 pd.
Proof. exact settings_case. Qed.

(** A control loop that leaves gains and costs alone always compiles, whatever it
    assigns and however often a setter rejects it, and always to the same components. *)
Theorem C92_control_loop_compiles m lo hi cs os : sound_model m -> wf_tensor lo -> wf_tensor hi -> Forall constructed cs -> Forall (fun c => wf_arrays (c_at c)) cs ->
  limit_fits m lo -> limit_fits m hi -> NoDup (map (fun c => a_name (c_at c)) cs) -> Forall (fun c => exists d, suits m c d) cs -> Forall steering os ->
  exists pd, compiled_by (setup m lo hi cs ++ os) 0 pd /\ jd_model pd = m /\ List.length (jd_vmin pd) = m_nv m /\ List.length (jd_vmax pd) = m_nv m /\
    Forall2 (fun c e => fst e = a_name (c_at c) /\ same_class c (snd e) /\ exists d, suits m c d /\ j_dim (snd e) = Z.of_nat d) cs (jd_comps pd).
Proof. exact (loop_compiles m lo hi cs os). Qed.
Print Assumptions C92_control_loop_compiles.

(** And if targets and bounds are plain vectors, [solve] then gives a solution of the
    QP at every configuration, or fails because the Jacobian of a barrier vanishes;
    that barrier is not a joint barrier on one or more joints. *)
Theorem C92_control_loop_solves m lo hi cs os : sound_model m -> wf_tensor lo -> wf_tensor hi -> Forall constructed cs -> Forall (fun c => wf_arrays (c_at c)) cs ->
  limit_fits m lo -> limit_fits m hi -> NoDup (map (fun c => a_name (c_at c)) cs) -> Forall (fun c => exists d, suits m c d) cs -> Forall (plain m) cs ->
  Forall steering os -> Forall proper os -> Forall plain_call os ->
  exists pd, compiled_by (setup m lo hi cs ++ os) 0 pd /\
  forall L So q v, sound_lib L m -> t_shape q = [m_nq m] -> let d := update L m (t_data q) in wf_data m d ->
    (forall j, In j (comps_of pd) -> needs_care j -> accepted L d j) ->
    (exists Q, assemble L m pd d = Ok Q /\ solve L So m q v pd = Ok (So Q, sol_primal (So Q))) \/
    (solve L So m q v pd = Err NonFinite /\ exists j J, In j (comps_of pd) /\ is_barrier j = true /\ jacobian L j d = Ok J /\ frob2 J = 0%R /\
       ((exists s l h x, j_ext j = JBarrier s (JBJoint l h x)) -> j_dim j = 0%Z)).
Proof. exact (loop_solves m lo hi cs os). Qed.
Print Assumptions C92_control_loop_solves.

(** The program of examples/local_ik.py, with any numbers, on any robot that has the
    named body: no call of the setup fails, and the problem compiles in every turn of
    the loop, to 6, 1, two per hinge or slide, and one per pair of geoms to check. *)
Theorem C92_local_ik_program m s i lo hi cost g1 g2 g3 g4 lm sdg px d dm ft pb jb sc os : sound_model m -> has_object m OBody s i ->
  new_frame_task "ee_task" (tscalar cost) (tscalar g1) s OBody None lm None = Ok ft ->
  new_position_barrier "ee_barrier" (tscalar g2) s OBody None (Some (tscalar px)) "max" None sdg (Some (mvec [1; 0; 0]%Z)) = Ok pb ->
  new_joint_barrier "jnt_range" (tscalar g3) None d None None None = Ok jb ->
  new_self_collision "self_collision_barrier" (tscalar g4) None d dm [] [] (-1) = Ok sc ->
  Forall steering os ->
  let prog := setup m (tscalar lo) (tscalar hi) [ft; pb; jb; sc] in
  runs prog empty_world /\
  exists pd ps, compiled_by (prog ++ os) 0 pd /\ checks_exactly m (all_bodies m) [] ps /\ jd_model pd = m /\
    List.length (jd_vmin pd) = m_nv m /\ List.length (jd_vmax pd) = m_nv m /\
    map (fun e => (fst e, j_dim (snd e))) (jd_comps pd) =
      [("ee_task", 6); ("ee_barrier", 1); ("jnt_range", 2 * Z.of_nat (n_scalar m)); ("self_collision_barrier", Z.of_nat (List.length ps))]%string%Z.
Proof. exact (local_ik_programs m s i lo hi cost g1 g2 g3 g4 lm sdg px d dm ft pb jb sc os). Qed.
Print Assumptions C92_local_ik_program.

Example C92_local_ik_case : sound_model rig /\ has_object rig OBody "tip" 4 /\ Forall steering turn /\ n_scalar rig = 4 /\
  new_frame_task "ee_task" (tscalar 1%R) (tscalar 20%R) "tip" OBody None 0%R None = Ok (ee_task "tip") /\
  new_position_barrier "ee_barrier" (tscalar 100%R) "tip" OBody None (Some (tscalar (3/10)%R)) "max" None (1/100)%R (Some (mvec [1; 0; 0]%Z)) = Ok (ee_barrier "tip") /\
  new_joint_barrier "jnt_range" (tscalar 10%R) None 0%R None None None = Ok jnt_range /\
  new_self_collision "self_collision_barrier" (tscalar 1%R) None 0%R (1/100)%R [] [] (-1) = Ok self_barrier_ /\
  exists pd, compiled_by (setup rig (tscalar (-100)%R) (tscalar 100%R) [ee_task "tip"; ee_barrier "tip"; jnt_range; self_barrier_] ++ turn) 0 pd /\ map j_dim (comps_of pd) = [6; 1; 8; 3]%Z.
Proof. exact local_ik_case. Qed.

(** The control loop of README.md on any robot that has the named body and a hinge or a
    slide: whatever vectors it assigns as targets, [solve] never fails. *)
Theorem C92_readme_loop_never_fails m s i lo hi cost g1 g2 lm d ft jb os : sound_model m -> has_object m OBody s i -> 0 < n_scalar m ->
  wf_tensor lo -> wf_tensor hi -> limit_fits m lo -> limit_fits m hi ->
  new_frame_task "ee_task" (tscalar cost) (tscalar g1) s OBody None lm None = Ok ft ->
  new_joint_barrier "jnt_range" (tscalar g2) None d None None None = Ok jb ->
  Forall steering os -> Forall proper os -> Forall plain_call os ->
  exists pd, compiled_by (setup m lo hi [ft; jb] ++ os) 0 pd /\
  forall L So q v, sound_lib L m -> t_shape q = [m_nq m] -> wf_data m (update L m (t_data q)) ->
    exists Q, assemble L m pd (update L m (t_data q)) = Ok Q /\ solve L So m q v pd = Ok (So Q, sol_primal (So Q)).
Proof. exact (readme_solves m s i lo hi cost g1 g2 lm d ft jb os). Qed.
Print Assumptions C92_readme_loop_never_fails.

(** One turn of such a loop sets a pose, is refused another, and gets on. *)
Example C92_readme_case : sound_lib rig_lib rig /\ wf_data rig (update rig_lib rig [0; 1; 2; 3]%R) /\ has_object rig OBody "tip" 4 /\ 0 < n_scalar rig /\
  Forall steering turn /\ Forall proper turn /\ Forall plain_call turn /\
  fst (step (nth 1 turn (WCompile 0)) (state (setup rig (tscalar (-100)%R) (tscalar 100%R) [ee_task "tip"; jnt_range]))) = Err ValueError.
Proof.
  split; [exact rig_lib_sound|]. split; [apply rig_wf; reflexivity|]. split; [exact rig_tip|]. split; [repeat constructor|].
  split; [apply turn_steers|]. split; [apply turn_steers|]. split; [apply turn_steers|]. exact turn_partly.
Qed.
