(** Properties: shapes of compiled components and of whole programs. *)
From Verif Require Import Base Lin Mjx Typing Component Problem SpecComponent SpecJoint SpecHistory SpecProblem SpecCollision SpecTree SpecShape SpecContact SpecSelf SpecMotion SpecValue Rot Conf FrameJac Collide JaxComponents LocalIK SpecQP SpecLoop SpecFit.
From Verif Require Import QPCases MotionCases FitFacts2 FitFacts3 FitThms FitCases.
Open Scope R_scope.

(** ** C24 *)
Theorem C24_component_shapes L d j : api_component j -> sound_lib L (j_model j) -> wf_data (j_model j) d -> accepted L d j -> shapes_fit L d j.
Proof. exact (component_fits L d j). Qed.
Print Assumptions C24_component_shapes.
(** Whole programs: every compiled component has the problem's model and fits. *)
Theorem C24_program_shapes L m os pi pd d : tidy m os -> compiled_by os pi pd -> sound_lib L m -> wf_data m d -> Forall (accepted L d) (comps_of pd) ->
  jd_model pd = m /\ Forall (shapes_fit L d) (comps_of pd) /\ Forall (fits L (m_nv m) d) (comps_of pd).
Proof. exact (program_shapes L m os pi pd d). Qed.
Print Assumptions C24_program_shapes.
(** The local solver never fails on shapes: it fails only when the Jacobian of a barrier is zero. *)
Theorem C24_solver_never_fails_on_shapes L So m os pi pd q v : tidy m os -> compiled_by os pi pd -> sound_lib L m -> t_shape q = [m_nq m] ->
  let d := update L m (t_data q) in wf_data m d -> Forall (accepted L d) (comps_of pd) ->
  (exists Q, assemble L m pd d = Ok Q /\ solve L So m q v pd = Ok (So Q, sol_primal (So Q))) \/
  (solve L So m q v pd = Err NonFinite /\ exists j J, In j (comps_of pd) /\ is_barrier j = true /\ jacobian L j d = Ok J /\ frob2 J = 0).
Proof. exact (program_solves L So m os pi pd q v). Qed.
Print Assumptions C24_solver_never_fails_on_shapes.
(** Nine components, one of every kind. *)
Example C24_case : tidy rig rig_prog /\ compiled_by rig_prog 0 rig_pd /\ sound_lib rig_lib rig /\
  map (fun p => (fst p, j_dim (snd p))) (jd_comps rig_pd) = [("reach", 3); ("com", 2); ("pose", 6); ("posture", 2); ("limits", 8); ("wall", 2); ("self", 1); ("loop", 3); ("user", 4)]%string%Z /\
  forall q, List.length q = 4%nat -> wf_data rig (update rig_lib rig q) /\ Forall (accepted rig_lib (update rig_lib rig q)) (comps_of rig_pd).
Proof.
  split; [exact rig_tidy|]. split; [exact rig_compiles|]. split; [exact rig_lib_sound|]. split; [reflexivity|]. intros q Hq. split; [now apply rig_wf|now apply rig_accepted].
Qed.

(** ** C20, for whole programs: nothing about shapes is assumed. *)
Theorem C20_joint_limits_of_programs L m os pi pd fm j lo hi dt (q v : nat -> vec) :
  tidy m os -> compiled_by os pi pd -> sound_lib L m ->
  (forall x, List.length x = m_nq m -> wf_data m (update L m x) /\ Forall (accepted L (update L m x)) (comps_of pd)) ->
  joint_barrier fm j -> In j (comps_of pd) -> has_limits j lo hi ->
  keeps_scalars L m -> (forall x, j_gain_fn j x = x) -> 0 <= dt -> Forall (fun a => 0 <= a * dt <= 1) (j_gain j) ->
  safe_loop L m pd dt q v ->
  (forall k, vle (vmul (decay (j_gain j) dt k) (slack lo hi (sel_pos m fm (q 0%nat)))) (slack lo hi (sel_pos m fm (q k)))) /\
  (within lo hi (sel_pos m fm (q 0%nat)) -> forall k, within lo hi (sel_pos m fm (q k))).
Proof. exact (program_limits L m os pi pd fm j lo hi dt q v). Qed.
Print Assumptions C20_joint_limits_of_programs.
Example C20_programs_case : tidy one lim1_prog /\ compiled_by lim1_prog 0 lim1_pd /\ sound_lib even_lib one /\ In lim1_j (comps_of lim1_pd) /\ joint_barrier None lim1_j /\
  has_limits lim1_j [-1] [1] /\ (forall x, j_gain_fn lim1_j x = x) /\ j_gain lim1_j = [1; 1] /\ keeps_scalars even_lib one /\
  safe_loop even_lib one lim1_pd (1 / 2) lim1_q lim1_v /\ within [-1] [1] (sel_pos one None (lim1_q 0)) /\
  forall x, List.length x = 1%nat -> wf_data one (update even_lib one x) /\ Forall (accepted even_lib (update even_lib one x)) (comps_of lim1_pd).
Proof.
  destruct lim1_case as (A & _ & B & C & D & E & F & _ & _ & _ & G). destruct lim1_even as (H & I0 & J). split; [exact lim1_tidy|]. split; [exact A|]. split; [apply even_sound|]. repeat (split; [assumption|]). exact J.
Qed.
