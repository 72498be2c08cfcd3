(** Concrete loops for PropsAnyLoop. *)
From Verif Require Import Base Lin LinFacts Mjx Typing Component Problem SpecComponent SpecJoint SpecHistory SpecTyping SpecCollision SpecTree SpecShape SpecContact SpecSelf SpecValue SpecProblem SpecQP SpecFit SpecTrace SpecSetup.
From Verif Require Import JaxComponents LocalIK GlobalIK Conf Witness CompThms2 FitFacts FitFacts3 FitCases CollideCases SetupFacts2 SetupFacts3 SetupFacts4 SetupFacts5 SetupCases SpecMotion MotionCases ValueCases SpecSolve SpecGlobal SpecClosed SpecGLoop SpecAnyLoop GLoopCases AnyLoopThms2 DescentCases ClosedCases QPCases.
Open Scope R_scope.
#[local] Arguments update_model : simpl never.

(** Every kind of component on one robot. *)
Definition crowd : list comp := [ee_task "tip"; ee_barrier "tip"; jnt_range; self_barrier_; rig_equality].
Lemma crowd_case : Forall constructed crowd /\ Forall (fun c => wf_arrays (c_at c)) crowd /\ NoDup (map nm crowd) /\ Forall (fun c => exists d, suits rig c d) crowd /\ Forall (plain rig) crowd /\
  forall q, List.length q = m_nq rig -> wf_data rig (update rig_lib rig q) /\ Forall (evaluates rig_lib rig q) crowd.
Proof.
  destruct (frame_suits _ _ _ _ _ _ rig 4 (ee_task_new "tip") rig_tip) as (F1 & F2 & F3 & F4 & F5). destruct (wall_suits _ _ _ _ _ _ rig 4 (ee_barrier_new "tip") rig_tip) as (P1 & P2 & P3 & P4 & P5).
  destruct (limits_suits _ _ _ _ _ rig jnt_range_new) as (J1 & J2 & J3 & J4 & J5). destruct (guard_suits _ _ _ _ _ rig self_barrier_new rig_sound) as (G1 & G2 & (ps & C & G3) & G4 & G5).
  destruct rig_equality_case as (E1 & _ & E3 & E4 & E5 & E6).
  assert (all : forall P : comp -> Prop, P (ee_task "tip") -> P (ee_barrier "tip") -> P jnt_range -> P self_barrier_ -> P rig_equality -> Forall P crowd) by (intros; unfold crowd; repeat (constructor; [assumption|]); constructor).
  split; [apply all; assumption|]. split; [apply all; assumption|]. split; [repeat constructor; cbn; intuition discriminate|]. split; [apply all; eauto|]. split; [apply all; assumption|].
  intros q Hq. split; [now apply rig_wf|]. apply all; auto; try exact I.
  unfold evaluates. cbn [c_at a_ext new_comp self_barrier_ sc_bodies sc_excl_raw sc_n]. change (a_ext (c_at self_barrier_)) with (XBarrier 0 (BSelf (mkSC (1 / 100) [] [] None None (-1)))). cbn [sc_bodies sc_excl_raw sc_n].
  intros ids ex ps' H1 H2 H3. unfold lists_bodies in H1. subst ids. inversion H2; subst. destruct (rig_pairs ps' H3) as [A B]. split; [exact A|]. split; [exact B|lia].
Qed.
(** A joint barrier on no joint stops the loop in its first turn. *)
Lemma idle_case : setup arm2 (tscalar (-1)) (tscalar 1) [empty_bar] = nan_prog /\ suits arm2 empty_bar 0 /\ compiled_by (nan_prog ++ calls_of [] ++ []) 0 nan_pd /\
  (forall L d, idle_barrier L d nan_pd) /\ forall L So q s, List.length q = 2%nat -> solve L So arm2 (tvec q) s nan_pd = Err NonFinite.
Proof.
  split; [reflexivity|]. split; [split; [now left|]; cbn; split; [reflexivity|split; [reflexivity|intros [X|X]; discriminate]]|]. split; [vm_compute; reflexivity|]. split.
  - intros L d. unfold nan_pd, comps_of. cbn [jd_comps map snd]. eexists. exists []. split; [now left|]. split; [reflexivity|]. split; reflexivity.
  - intros L So q s Hq. unfold solve. cbn [t_shape tvec]. rewrite Hq. change (Nat.eqb 2 (m_nq arm2)) with true. cbn iota. unfold solve_from_data, assemble. cbn. unfold add_component_qp. cbn. unfold process_barrier. cbn. destruct (Req_EM_T 0 0) as [_|N]; [reflexivity|now elim N].
Qed.
Lemma rig_keeps : keeps_scalars rig_lib rig.
Proof. intros q Hq. split; [exact Hq|reflexivity]. Qed.
Lemma rig_rows q : List.length q = m_nq rig -> wf_data rig (update rig_lib rig q) /\ List.length (flagged (d_efc_pos (update rig_lib rig q)) (d_efc_is_equality (update rig_lib rig q))) = eq_total rig.
Proof. intros Hq. split; [now apply rig_wf|reflexivity]. Qed.
(** The components of the example on this robot, and any number of turns of its loop. *)
Definition squat_com : comp := unwrap (new_com_task "com_task" (tscalar 10) (tscalar 10) None (1 / 1000) (Some (mvec [1; 1; 1]%Z))) none.
Definition squat_torso : comp := unwrap (new_frame_task "torso_task" (tscalar 1) (tscalar 2) "tip" OBody None (1 / 1000) (Some (mvec [0; 0; 0; 1; 1; 1]%Z))) none.
Definition squat_range : comp := unwrap (new_joint_barrier "jnt_range" (tscalar (1 / 10)) None 0 None None None) none.
Definition squat_foot n : comp := unwrap (new_frame_task n (tscalar 5) (tscalar 10) "tip" OBody None (1 / 1000) (Some (mvec [1; 1; 1; 1; 0; 1]%Z))) none.
Definition squat_equality : comp := unwrap (new_model_equality "equality_constraint" (tscalar 100) false None) none.
Definition squat : list comp := [squat_com; squat_torso; squat_range; squat_foot "left_foot_task"; squat_foot "right_foot_task"; squat_equality].
Lemma squat_foot_new n : new_frame_task n (tscalar 5) (tscalar 10) "tip" OBody None (1 / 1000) (Some (mvec [1; 1; 1; 1; 0; 1]%Z)) = Ok (squat_foot n).
Proof. unfold squat_foot, new_frame_task, init_task. cbn. destruct (Rlt_dec (1 / 1000) 0); [lra|]. reflexivity. Qed.
Lemma squat_torso_new : new_frame_task "torso_task" (tscalar 1) (tscalar 2) "tip" OBody None (1 / 1000) (Some (mvec [0; 0; 0; 1; 1; 1]%Z)) = Ok squat_torso.
Proof. unfold squat_torso, new_frame_task, init_task. cbn. destruct (Rlt_dec (1 / 1000) 0); [lra|]. reflexivity. Qed.
Lemma squat_com_new : new_com_task "com_task" (tscalar 10) (tscalar 10) None (1 / 1000) (Some (mvec [1; 1; 1]%Z)) = Ok squat_com.
Proof. unfold squat_com, new_com_task, init_task. cbn. destruct (Rlt_dec (1 / 1000) 0); [lra|]. reflexivity. Qed.
Definition rest_solver : qpsolver := pull_solver.
Lemma squat_runs n : exists tr qn, control_loop rig_lib rest_solver rig (1 / 2) (setup rig (tscalar (-2)) (tscalar 2) squat) (repeat turn n) [0; 0; 0; 0] [0; 0; 0; 0] tr qn /\ List.length tr = n /\
  (Forall (exact_turn rig_lib rest_solver rig) tr -> in_range rig qn).
Proof.
  assert (Ht : Forall (Forall loop_call) (repeat turn n) /\ Forall (Forall keeps_limits) (repeat turn n)).
  { split; apply Forall_forall; intros x Hx; apply repeat_spec in Hx; subst x; apply turn_loops. } destruct Ht as [Ht Hk].
  destruct (cassie_loop rig "tip" "tip" "tip" 4 4 4 (-2) 2 10 1 5 10 2 (1 / 10) 10 100 (1 / 1000) 0 squat_com squat_torso squat_range (squat_foot "left_foot_task") (squat_foot "right_foot_task") squat_equality
    rig_lib rest_solver (1 / 2) (repeat turn n) [0; 0; 0; 0] [0; 0; 0; 0]) as (tr & qn & C & Lt & S); try exact rig_tip; try apply squat_foot_new; try lra.
  - exact rig_sound.
  - vm_compute; lia.
  - repeat constructor.
  - exact squat_com_new.
  - exact squat_torso_new.
  - reflexivity.
  - reflexivity.
  - exact rig_lib_sound.
  - exact rig_keeps.
  - exact rig_rows.
  - exact pull_one.
  - exact Ht.
  - exact Hk.
  - reflexivity.
  - apply rig_range.
  - exists tr, qn. split; [exact C|]. split; [now rewrite Lt, repeat_length|]. intros H. now apply S.
Qed.
Lemma pull_tame : Forall (tame one) [half_pull; bar1] /\ Forall soft_component [half_pull; bar1] /\ forall q, Forall (evaluates even_lib one q) [half_pull; bar1].
Proof. split; [constructor; [exact I|constructor; [cbn; discriminate|constructor]]|]. split; [repeat constructor|]. intros q. constructor; [exact I|constructor; [exact I|constructor]]. Qed.
