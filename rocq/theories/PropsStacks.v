(** C121: batched loops with any components, and the batched examples. *)
From Verif Require Import Base Lin LinFacts Mjx Typing Component Problem SpecComponent SpecJoint SpecHistory SpecTyping SpecCollision SpecTree SpecShape SpecContact SpecSelf SpecValue SpecProblem SpecQP SpecFit SpecTrace SpecSetup.
From Verif Require Import Conf JaxComponents LocalIK GlobalIK SpecMotion SpecLoop SpecSolve SpecGlobal SpecClosed SpecGLoop SpecAnyLoop JaxTree SpecJaxTree SpecBatch SpecVmap SpecLanes SpecStacks SetupFacts2.
From Verif Require Import FitCases SetupCases VmapCases MotionCases DescentCases ClosedCases LanesCases LanesCases2 GLoopCases AnyLoopCases StackThms StackExamples StackWitness.
Open Scope nat_scope.

(** A problem with components of any kind, any calls after its set-up, then a template.  Every
    turn gives stacks of targets, one row per lane, to the same tasks.  Then the template
    can be made and takes axis 0 at those targets, all assignments are accepted, and there
    are two cases.  Either the whole batched loop runs.  Or, in some lane and turn, the same
    loop for this lane alone runs up to that turn, and there [solve] divides by zero
    because a barrier does not depend on the velocity. *)
Theorem C121_runs_or_a_barrier_is_idle m lo hi cs N places pre turns L So dt q s : sound_model m -> wf_tensor lo -> wf_tensor hi -> limit_fits m lo -> limit_fits m hi -> NoDup (map nm cs) -> Forall (ready m) cs ->
  Forall loop_call pre -> Forall (fun ks => stack_turn m N cs ks /\ forall p, In p (map place ks) <-> In p places) turns -> turns <> [] ->
  sound_lib L m -> (forall q, List.length q = m_nq m -> wf_data m (update L m q) /\ Forall (evaluates L m q) cs) -> one_entry_each So -> (forall i, i < N -> List.length (q i) = m_nq m) ->
  let prog := setup m lo hi cs ++ pre in
  exists t tm, fst (set_vmap_dimension 0 (state prog)) = Ok t /\ set_axes places t = Ok tm /\
  ((exists tr qn, vmapped_loop L So m dt N tm (prog ++ [WCompile 0]) turns q s tr qn) \/
   (exists i ts ks ts' tr q' pd, i < N /\ turns = ts ++ ks :: ts' /\ jitted_loop L So m dt (prog ++ [WCompile 0]) (rows_of i ts) (q i) (s i) tr q' /\
     compiled_by ((prog ++ [WCompile 0]) ++ calls_of (rows_of i ts) ++ map (as_row i) ks) 0 pd /\ (forall s', solve L So m (tvec q') s' (under_jit pd) = Err NonFinite) /\ idle_barrier L (update L m q') pd)).
Proof. intros H1 H2 H3 H4 H5 H6 H7 H8 H9 H10 H11 H12 H13 H14. exact (stacks_outcome m lo hi cs H1 H2 H3 H4 H5 H6 H7 N places pre turns H8 H9 H10 L So dt q s H11 H12 H13 H14). Qed.
Print Assumptions C121_runs_or_a_barrier_is_idle.

(** Without barriers other than joint barriers the batched loop always runs. *)
Theorem C121_batches_never_fail m lo hi cs N places pre turns L So dt q s : sound_model m -> wf_tensor lo -> wf_tensor hi -> limit_fits m lo -> limit_fits m hi -> NoDup (map nm cs) -> Forall (ready m) cs -> Forall (tame m) cs ->
  Forall loop_call pre -> Forall (fun ks => stack_turn m N cs ks /\ forall p, In p (map place ks) <-> In p places) turns -> turns <> [] ->
  sound_lib L m -> (forall q, List.length q = m_nq m -> wf_data m (update L m q) /\ Forall (evaluates L m q) cs) -> one_entry_each So -> (forall i, i < N -> List.length (q i) = m_nq m) ->
  let prog := setup m lo hi cs ++ pre in
  exists t tm tr qn, fst (set_vmap_dimension 0 (state prog)) = Ok t /\ set_axes places t = Ok tm /\ vmapped_loop L So m dt N tm (prog ++ [WCompile 0]) turns q s tr qn.
Proof. intros H1 H2 H3 H4 H5 H6 H7 H7' H8 H9 H10 H11 H12 H13 H14. exact (stacks_run m lo hi cs H1 H2 H3 H4 H5 H6 H7 N places pre turns H8 H9 H10 L So dt q s H11 H12 H13 H14 H7'). Qed.
Print Assumptions C121_batches_never_fail.

(** A lane that starts within the limits of all joint barriers keeps to them, if its
    solutions are exact and either its quadratic programmes have solutions, or the velocity
    limits allow rest and there are neither hard constraints nor other barriers. *)
Theorem C121_batches_keep_limits m lo hi cs N places pre turns L So dt q s t tm tr qn : sound_model m -> wf_tensor lo -> wf_tensor hi -> limit_fits m lo -> limit_fits m hi -> NoDup (map nm cs) -> Forall (ready m) cs ->
  Forall loop_call pre -> Forall (fun ks => stack_turn m N cs ks /\ forall p, In p (map place ks) <-> In p places) turns -> turns <> [] ->
  sound_lib L m -> (forall q, List.length q = m_nq m -> wf_data m (update L m q) /\ Forall (evaluates L m q) cs) -> (forall i, i < N -> List.length (q i) = m_nq m) ->
  let prog := setup m lo hi cs ++ pre in
  fst (set_vmap_dimension 0 (state prog)) = Ok t -> set_axes places t = Ok tm -> vmapped_loop L So m dt N tm (prog ++ [WCompile 0]) turns q s tr qn ->
  Forall keeps_limits pre -> Forall (mild dt) cs -> (0 <= dt)%R -> keeps_scalars L m ->
  forall i, i < N -> Forall (in_limits m (q i)) cs -> Forall (exact_turn L So m) (lane i tr) ->
  Forall (possible_turn L m) (lane i tr) \/ (below_zero lo /\ above_zero hi /\ Forall (tame m) cs /\ Forall soft_component cs) ->
  Forall (in_limits m (qn i)) cs /\ Forall (fun t => Forall (in_limits m (fst (fst t) i)) cs) tr.
Proof. intros H1 H2 H3 H4 H5 H6 H7 H8 H9 H10 H11 H12 H14. exact (stacks_safe m lo hi cs H1 H2 H3 H4 H5 H6 H7 N places pre turns H8 H9 H10 L So dt q s H11 H12 H14 t tm tr qn). Qed.
Print Assumptions C121_batches_keep_limits.

(** All kinds of components together: a task, a position barrier, a joint barrier, a
    self-collision barrier and a hard equality constraint; [S k] turns, two lanes. *)
Example C121_case k : Forall (ready rig) crowd /\ NoDup (map nm crowd) /\
  Forall (fun ks => stack_turn rig 2 crowd ks /\ forall p, In p (map place ks) <-> In p ee_places) (repeat (pose_turn 0 "ee_task" two_poses) (S k)) /\
  (forall q, List.length q = m_nq rig -> wf_data rig (update rig_lib rig q) /\ Forall (evaluates rig_lib rig q) crowd) /\ Forall loop_call feet_first /\ Forall keeps_limits feet_first.
Proof.
  destruct crowd_case as (A & B & C & D & E & F). split; [|split; [exact C|split; [|split; [exact F|exact feet_calls]]]].
  - rewrite Forall_forall in A, B, D, E |- *. intros c Hc. unfold ready. auto.
  - apply Forall_forall. intros ks Hk. apply repeat_spec in Hk. subst ks. split; [|intros p; cbn; tauto].
    constructor; [|constructor]. exists (ee_task "tip"). split; [reflexivity|]. split; [reflexivity|]. exists two_poses. repeat split.
Qed.

(** examples/go2_squat.py, on any robot with the objects it names and a hinge or a slide: for
    all targets, gains, costs, lanes and turns the template can be made, the loop runs, and
    the lanes that start in the joint range stay there if the solutions are exact. *)
Theorem C121_go2_squat m b i lo hi k1 k2 k3 g1 g2 g3 g4 lm d ct ft jb feet L So dt N pre Ts q s : sound_model m -> has_object m OBody b i -> 0 < n_scalar m -> (lo <= 0)%R -> (0 <= hi)%R ->
  new_com_task "com_task" (tscalar k1) (tscalar g1) None lm None = Ok ct ->
  new_frame_task "body_orientation_task" (tscalar k2) (tscalar g2) b OBody None lm (Some (mvec [0; 0; 0; 1; 1; 1]%Z)) = Ok ft ->
  new_joint_barrier "jnt_range" (tscalar g3) None d None None None = Ok jb ->
  Forall2 (foot_task m k3 g4 lm) ["FL"; "FR"; "RL"; "RR"]%string feet ->
  (0 <= dt)%R -> (0 <= g3)%R -> (g3 * dt <= 1)%R -> sound_lib L m -> keeps_scalars L m -> (forall q, List.length q = m_nq m -> wf_data m (update L m q)) -> one_entry_each So ->
  Forall loop_call pre -> Forall keeps_limits pre ->
  Forall (fun p => stack_of N 7 (fst p) /\ stack_of N 3 (snd p)) Ts -> Ts <> [] -> (forall i, i < N -> List.length (q i) = m_nq m) ->
  let prog := setup m (tscalar lo) (tscalar hi) (ct :: ft :: jb :: feet) ++ pre in
  exists t tm tr qn, fst (set_vmap_dimension 0 (state prog)) = Ok t /\ set_axes go2_places t = Ok tm /\
    vmapped_loop L So m dt N tm (prog ++ [WCompile 0]) (map go2_turn Ts) q s tr qn /\
    forall i, i < N -> in_range m (q i) -> Forall (exact_turn L So m) (lane i tr) -> in_range m (qn i) /\ Forall (fun t => in_range m (fst (fst t) i)) tr.
Proof. exact (go2_batches m b i lo hi k1 k2 k3 g1 g2 g3 g4 lm d ct ft jb feet L So dt N pre Ts q s). Qed.
Print Assumptions C121_go2_squat.
Example C121_go2_case k : exists t tm tr qn, fst (set_vmap_dimension 0 (state (setup animal (tscalar (-5)) (tscalar 5) dog ++ feet_first))) = Ok t /\ set_axes go2_places t = Ok tm /\
  vmapped_loop even_lib pull_solver animal (1 / 100) 2 tm ((setup animal (tscalar (-5)) (tscalar 5) dog ++ feet_first) ++ [WCompile 0]) (map go2_turn (repeat (two_poses, two_coms) (S k))) two_starts (fun _ => [0; 0; 0; 0]%R) tr qn /\
  forall i, (i < 2)%nat -> in_range animal (two_starts i) -> Forall (exact_turn even_lib pull_solver animal) (lane i tr) -> in_range animal (qn i) /\ Forall (fun t => in_range animal (fst (fst t) i)) tr.
Proof. exact (dog_runs k). Qed.

(** examples/cassie_alip.py, on any robot with the bodies it names, a hinge or a slide, and
    supported equalities. *)
Theorem C121_cassie_alip m s1 s2 s3 i1 i2 i3 lo hi k1 k2 k3 g1 g2 g3 g4 g5 lm d1 ct tt' jb lf rf eq L So dt N pre Ts q s : sound_model m ->
  has_object m OBody s1 i1 -> has_object m OBody s2 i2 -> has_object m OBody s3 i3 -> 0 < n_scalar m -> Forall eq_supported (m_eq_type m) -> (lo <= 0)%R -> (0 <= hi)%R ->
  new_com_task "com_task" (tscalar k1) (tscalar g1) None lm (Some (mvec [1; 1; 1]%Z)) = Ok ct ->
  new_frame_task "torso_task" (tscalar k2) (tscalar g2) s1 OBody None lm (Some (mvec [0; 0; 0; 1; 1; 1]%Z)) = Ok tt' ->
  new_joint_barrier "jnt_range" (tscalar g3) None d1 None None None = Ok jb ->
  new_frame_task "left_foot_task" (tscalar k3) (tscalar g4) s2 OBody None lm (Some (mvec [1; 1; 1; 1; 0; 1]%Z)) = Ok lf ->
  new_frame_task "right_foot_task" (tscalar k3) (tscalar g4) s3 OBody None lm (Some (mvec [1; 1; 1; 1; 0; 1]%Z)) = Ok rf ->
  new_model_equality "equality_constraint" (tscalar g5) false None = Ok eq ->
  (0 <= dt)%R -> (0 <= g3)%R -> (g3 * dt <= 1)%R -> sound_lib L m -> keeps_scalars L m ->
  (forall q, List.length q = m_nq m -> wf_data m (update L m q) /\ List.length (flagged (d_efc_pos (update L m q)) (d_efc_is_equality (update L m q))) = eq_total m) -> one_entry_each So ->
  Forall loop_call pre -> Forall keeps_limits pre ->
  Forall (fun p => stack_of N 3 (fst (fst p)) /\ stack_of N 7 (snd (fst p)) /\ stack_of N 7 (fst (snd p)) /\ stack_of N 7 (snd (snd p))) Ts -> Ts <> [] -> (forall i, i < N -> List.length (q i) = m_nq m) ->
  let prog := setup m (tscalar lo) (tscalar hi) [ct; tt'; jb; lf; rf; eq] ++ pre in
  exists t tm tr qn, fst (set_vmap_dimension 0 (state prog)) = Ok t /\ set_axes alip_places t = Ok tm /\
    vmapped_loop L So m dt N tm (prog ++ [WCompile 0]) (map alip_turn Ts) q s tr qn /\
    forall i, i < N -> in_range m (q i) -> Forall (exact_turn L So m) (lane i tr) -> in_range m (qn i) /\ Forall (fun t => in_range m (fst (fst t) i)) tr.
Proof. exact (alip_batches m s1 s2 s3 i1 i2 i3 lo hi k1 k2 k3 g1 g2 g3 g4 g5 lm d1 ct tt' jb lf rf eq L So dt N pre Ts q s). Qed.
Print Assumptions C121_cassie_alip.
Example C121_alip_case k : exists t tm tr qn, fst (set_vmap_dimension 0 (state (setup rig (tscalar (-1)) (tscalar 1) squat ++ []))) = Ok t /\ set_axes alip_places t = Ok tm /\
  vmapped_loop rig_lib pull_solver rig (1 / 100) 2 tm ((setup rig (tscalar (-1)) (tscalar 1) squat ++ []) ++ [WCompile 0]) (map alip_turn (repeat ((two_coms, two_poses), (other_poses, two_poses)) (S k))) two_starts (fun _ => [0; 0; 0; 0]%R) tr qn /\
  forall i, (i < 2)%nat -> in_range rig (two_starts i) -> Forall (exact_turn rig_lib pull_solver rig) (lane i tr) -> in_range rig (qn i) /\ Forall (fun t => in_range rig (fst (fst t) i)) tr.
Proof. exact (alip_runs k). Qed.

(** examples/g1_heart.py, with self-collision between any listed bodies that exist and any
    exclusions among them, where there is a pair to check and MJX has a collision function for each pair:
    the batched loop runs, and lanes whose programmes have solutions keep to the joint
    range; or a lane meets an idle barrier. *)
Theorem C121_g1_heart m s1 s2 s3 s4 s5 i1 i2 i3 i4 i5 lo hi k1 k2 k3 k4 g0 g1 g2 g3 g4 g5 lm d1 d2 dm b0 bs ids er ex ct tt' jb la ra lf rf sc L So dt N pre Ts q s : sound_model m ->
  has_object m OBody s1 i1 -> has_object m OBody s2 i2 -> has_object m OBody s3 i3 -> has_object m OSite s4 i4 -> has_object m OSite s5 i5 -> 0 < n_scalar m ->
  Forall2 (refers m) (b0 :: bs) ids -> Forall2 (refers2 m) er ex ->
  new_com_task "com_task" (tscalar k1) (tscalar g1) None lm (Some (mvec [1; 1; 0]%Z)) = Ok ct ->
  new_frame_task "torso_task" (tscalar k2) (tscalar g2) s1 OBody None lm (Some (mvec [0; 0; 0; 1; 1; 1]%Z)) = Ok tt' ->
  new_joint_barrier "jnt_range" (tscalar g0) None d1 None None None = Ok jb ->
  new_frame_task "left_arm_task" (tscalar k3) (tscalar g3) s2 OBody None lm (Some (mvec [1; 1; 1; 1; 1; 0]%Z)) = Ok la ->
  new_frame_task "right_arm_task" (tscalar k3) (tscalar g3) s3 OBody None lm (Some (mvec [1; 1; 1; 1; 1; 0]%Z)) = Ok ra ->
  new_frame_task "left_foot_task" (tscalar k4) (tscalar g4) s4 OSite None lm None = Ok lf ->
  new_frame_task "right_foot_task" (tscalar k4) (tscalar g4) s5 OSite None lm None = Ok rf ->
  new_self_collision "self_collision_barrier" (tscalar g5) None d2 dm (b0 :: bs) er (-1) = Ok sc ->
  (0 <= dt)%R -> (0 <= g0)%R -> (g0 * dt <= 1)%R -> (0 <= g5)%R -> (g5 * dt <= 1)%R -> sound_lib L m -> keeps_scalars L m ->
  (forall q, List.length q = m_nq m -> wf_data m (update L m q)) -> (forall ids ex ps, Forall2 (refers m) (b0 :: bs) ids -> Forall2 (refers2 m) er ex -> checks_exactly m ids ex ps -> ps <> [] /\ full_table (l_coll L) m ps) -> one_entry_each So ->
  Forall loop_call pre -> Forall keeps_limits pre ->
  Forall (fun p => stack_of N 7 (fst p) /\ stack_of N 7 (snd p)) Ts -> Ts <> [] -> (forall i, i < N -> List.length (q i) = m_nq m) ->
  let prog := setup m (tscalar lo) (tscalar hi) [ct; tt'; jb; la; ra; lf; rf; sc] ++ pre in let turns := map heart_turn Ts in
  exists t tm, fst (set_vmap_dimension 0 (state prog)) = Ok t /\ set_axes heart_places t = Ok tm /\
   ((exists tr qn, vmapped_loop L So m dt N tm (prog ++ [WCompile 0]) turns q s tr qn /\
     forall i, i < N -> in_range m (q i) -> Forall (exact_turn L So m) (lane i tr) -> Forall (possible_turn L m) (lane i tr) -> in_range m (qn i) /\ Forall (fun t => in_range m (fst (fst t) i)) tr) \/
    (exists i ts ks ts' tr q' pd, i < N /\ turns = ts ++ ks :: ts' /\ jitted_loop L So m dt (prog ++ [WCompile 0]) (rows_of i ts) (q i) (s i) tr q' /\
     compiled_by ((prog ++ [WCompile 0]) ++ calls_of (rows_of i ts) ++ map (as_row i) ks) 0 pd /\ (forall s', solve L So m (tvec q') s' (under_jit pd) = Err NonFinite) /\ idle_barrier L (update L m q') pd)).
Proof. exact (heart_batches m s1 s2 s3 s4 s5 i1 i2 i3 i4 i5 lo hi k1 k2 k3 k4 g0 g1 g2 g3 g4 g5 lm d1 d2 dm b0 bs ids er ex ct tt' jb la ra lf rf sc L So dt N pre Ts q s). Qed.
Print Assumptions C121_g1_heart.
(** A robot with such sites and bodies; one pair of bodies is excluded. *)
Example C121_heart_case : sound_model animal /\ has_object animal OSite "left" 0 /\ has_object animal OSite "right" 1 /\ Forall2 (refers animal) limbs limb_ids /\ Forall2 (refers2 animal) [(CBInt 2, CBStr "tip"%string)]%Z [(2, 4)]%Z /\
  forall ids ex ps, Forall2 (refers animal) limbs ids -> Forall2 (refers2 animal) [(CBInt 2, CBStr "tip"%string)]%Z ex -> checks_exactly animal ids ex ps -> ps <> [] /\ full_table (l_coll rig_lib) animal ps.
Proof. split; [exact animal_sound|]. split; [cbn; tauto|]. split; [cbn; tauto|]. exact limbs_case. Qed.

(** examples/local_ik_vmapped_output.py: one pose per lane, a wall and the joint ranges. *)
Theorem C121_local_ik_output m s0 i0 lo hi k g1 g2 g3 lm d0 d1 px ft pb jb L So dt N pre Ts q s : sound_model m -> has_object m OBody s0 i0 -> 0 < n_scalar m ->
  new_frame_task "ee_task" (tscalar k) (tscalar g1) s0 OBody None lm None = Ok ft ->
  new_position_barrier "ee_barrier" (tscalar g2) s0 OBody None (Some (tscalar px)) "max" None d0 (Some (mvec [1; 0; 0]%Z)) = Ok pb ->
  new_joint_barrier "jnt_range" (tscalar g3) None d1 None None None = Ok jb ->
  sound_lib L m -> (forall q, List.length q = m_nq m -> wf_data m (update L m q)) -> one_entry_each So -> Forall loop_call pre ->
  Forall (stack_of N 7) Ts -> Ts <> [] -> (forall i, i < N -> List.length (q i) = m_nq m) ->
  let prog := setup m (tscalar lo) (tscalar hi) [ft; pb; jb] ++ pre in let turns := map ee_turn Ts in
  exists t tm, fst (set_vmap_dimension 0 (state prog)) = Ok t /\ set_axes ee_place t = Ok tm /\
   ((exists tr qn, vmapped_loop L So m dt N tm (prog ++ [WCompile 0]) turns q s tr qn) \/
    (exists i ts ks ts' tr q' pd, i < N /\ turns = ts ++ ks :: ts' /\ jitted_loop L So m dt (prog ++ [WCompile 0]) (rows_of i ts) (q i) (s i) tr q' /\
     compiled_by ((prog ++ [WCompile 0]) ++ calls_of (rows_of i ts) ++ map (as_row i) ks) 0 pd /\ (forall s', solve L So m (tvec q') s' (under_jit pd) = Err NonFinite) /\ idle_barrier L (update L m q') pd)).
Proof. exact (output_batches m s0 i0 lo hi k g1 g2 g3 lm d0 d1 px ft pb jb L So dt N pre Ts q s). Qed.
Print Assumptions C121_local_ik_output.
Example C121_output_case : has_object rig OBody "tip" 4 /\ 0 < n_scalar rig /\ new_position_barrier "ee_barrier" (tscalar 100%R) "tip" OBody None (Some (tscalar (3/10)%R)) "max" None (1/100)%R (Some (mvec [1; 0; 0]%Z)) = Ok (ee_barrier "tip") /\ Forall (stack_of 2 7) [two_poses; other_poses].
Proof. split; [exact rig_tip|]. split; [vm_compute; lia|]. split; [exact (ee_barrier_new "tip")|]. repeat constructor. Qed.
