(** Concrete batched loops for PropsStacks. *)
From Verif Require Import Base Lin LinFacts Mjx Typing Component Problem SpecComponent SpecJoint SpecHistory SpecTyping SpecCollision SpecTree SpecShape SpecContact SpecSelf SpecValue SpecProblem SpecQP SpecFit SpecTrace SpecSetup.
From Verif Require Import BindThms2 Conf JaxComponents LocalIK GlobalIK Witness CollideCases FitCases SetupFacts2 SetupFacts5 SetupCases SpecMotion SpecLoop SpecSolve SpecGlobal SpecClosed SpecGLoop SpecAnyLoop JaxTree SpecJaxTree SpecBatch SpecVmap SpecLanes SpecStacks VmapCases MotionCases DescentCases ClosedCases LanesCases LanesCases2 GLoopCases AnyLoopCases.
From Verif Require Import StackCases StackThms StackExamples.
Open Scope R_scope.
#[local] Arguments update_model : simpl never.

(** A robot with four joints, four named geoms and two sites. *)
Definition animal : mjmodel :=
  let m := rig in
  {| m_nq := m_nq m; m_nv := m_nv m; m_njnt := m_njnt m; m_nbody := m_nbody m; m_neq := m_neq m;
     m_jnt_type := m_jnt_type m; m_jnt_qposadr := m_jnt_qposadr m; m_jnt_dofadr := m_jnt_dofadr m;
     m_jnt_range := m_jnt_range m; m_body_weldid := m_body_weldid m; m_body_parentid := m_body_parentid m;
     m_body_rootid := m_body_rootid m; m_body_geomadr := m_body_geomadr m; m_body_geomnum := m_body_geomnum m;
     m_body_mass := m_body_mass m; m_geom_bodyid := m_geom_bodyid m; m_geom_contype := m_geom_contype m;
     m_geom_conaffinity := m_geom_conaffinity m; m_geom_type := m_geom_type m; m_geom_dataid := m_geom_dataid m;
     m_geom_priority := m_geom_priority m; m_geom_condim := m_geom_condim m; m_site_bodyid := [2; 3]%Z;
     m_dof_bodyid := m_dof_bodyid m; m_eq_type := m_eq_type m;
     m_names := [(OBody, "base", 1); (OBody, "tip", 4); (OGeom, "FL", 0); (OGeom, "FR", 1); (OGeom, "RL", 2); (OGeom, "RR", 3); (OSite, "left", 0); (OSite, "right", 1)]%Z%string |}.
Lemma animal_sound : sound_model animal.
Proof.
  destruct rig_sound as ((A1 & A2 & A3 & A4 & A5 & A6 & _ & A8) & B & C & _ & _ & F & G). split; [repeat (split; [assumption|]); split; [repeat constructor; cbn; lia|exact A8]|]. split; [exact B|]. split; [exact C|]. split; [|split; [|split; [exact F|exact G]]].
  - split.
    + intros ty s i H. cbn in H. repeat (destruct H as [H|H]; [injection H as <- <- <-; lia|]). contradiction.
    + intros ty s i i' H H'. cbn in H, H'. repeat (destruct H as [H|H]; [injection H as <- <- <-; repeat (destruct H' as [H'|H']; [injection H'; intros; subst; first [reflexivity|discriminate]|]); contradiction|]). contradiction.
  - intros ty s i _ H. unfold has_object in H. cbn in H. repeat (destruct H as [H|H]; [injection H as <- <- <-; cbn; lia|]). contradiction.
Qed.
Definition dog_com : comp := unwrap (new_com_task "com_task" (tscalar 5) (tscalar 10) None 0 None) none.
Definition dog_body : comp := unwrap (new_frame_task "body_orientation_task" (tscalar 1) (tscalar 10) "base" OBody None 0 (Some (mvec [0; 0; 0; 1; 1; 1]%Z))) none.
Definition dog_foot (f : string) : comp := unwrap (new_frame_task (f ++ "_foot_task") (tscalar 20) (tscalar 10) f OGeom None 0 (Some (mvec [1; 1; 1; 0; 0; 0]%Z))) none.
Definition dog : list comp := dog_com :: dog_body :: squat_range :: map dog_foot ["FL"; "FR"; "RL"; "RR"]%string.
Lemma dog_com_new : new_com_task "com_task" (tscalar 5) (tscalar 10) None 0 None = Ok dog_com.
Proof. unfold dog_com, new_com_task, init_task. cbn. destruct (Rlt_dec 0 0); [lra|]. reflexivity. Qed.
Lemma dog_body_new : new_frame_task "body_orientation_task" (tscalar 1) (tscalar 10) "base" OBody None 0 (Some (mvec [0; 0; 0; 1; 1; 1]%Z)) = Ok dog_body.
Proof. unfold dog_body, new_frame_task, init_task. cbn. destruct (Rlt_dec 0 0); [lra|]. reflexivity. Qed.
Lemma dog_foot_new f i : In (OGeom, f, i) (m_names animal) -> foot_task animal 20 10 0 f (dog_foot f).
Proof. intros H. split; [now exists i|]. unfold dog_foot, new_frame_task, init_task. cbn. destruct (Rlt_dec 0 0); [lra|]. reflexivity. Qed.
(** The feet get their targets before the template is made. *)
Definition foot_at (k : nat) (x : R) : wop := WCop k (OpTargetFrame (FArr (tvec [x; 0; 0; 1; 0; 0; 0]))).
Definition feet_first : list wop := [WCompile 0; foot_at 3 1; foot_at 4 2; foot_at 5 3; foot_at 6 4].
Lemma feet_calls : Forall loop_call feet_first /\ Forall keeps_limits feet_first.
Proof.
  split; [|repeat constructor]. assert (F : forall k x, loop_call (foot_at k x)). { intros k x. unfold loop_call, foot_at, steering. split; [split; [first [now constructor|exact I|exact eq_refl]|exact I]|]. split; [reflexivity|]. exists [x; 0; 0; 1; 0; 0; 0]. reflexivity. }
  constructor; [split; [split; exact I|split; exact I]|]. repeat (constructor; [apply F|]). constructor.
Qed.
Definition two_coms : tensor := mkT [2; 3]%nat [0; 0; 1; 1; 0; 2].
Lemma dog_runs k : exists t tm tr qn, fst (set_vmap_dimension 0 (state (setup animal (tscalar (-5)) (tscalar 5) dog ++ feet_first))) = Ok t /\ set_axes go2_places t = Ok tm /\
  vmapped_loop even_lib pull_solver animal (1 / 100) 2 tm ((setup animal (tscalar (-5)) (tscalar 5) dog ++ feet_first) ++ [WCompile 0]) (map go2_turn (repeat (two_poses, two_coms) (S k))) two_starts (fun _ => [0; 0; 0; 0]) tr qn /\
  forall i, (i < 2)%nat -> in_range animal (two_starts i) -> Forall (exact_turn even_lib pull_solver animal) (lane i tr) -> in_range animal (qn i) /\ Forall (fun t => in_range animal (fst (fst t) i)) tr.
Proof.
  unfold dog. apply go2_batches with (b := "base"%string) (i := 1%Z) (k1 := 5) (k2 := 1) (k3 := 20) (g1 := 10) (g2 := 10) (g3 := 1 / 10) (g4 := 10) (lm := 0) (d := 0).
  - exact animal_sound.
  - now left.
  - vm_compute; lia.
  - lra.
  - lra.
  - exact dog_com_new.
  - exact dog_body_new.
  - reflexivity.
  - constructor; [apply dog_foot_new with 0%Z; cbn; tauto|]. constructor; [apply dog_foot_new with 1%Z; cbn; tauto|]. constructor; [apply dog_foot_new with 2%Z; cbn; tauto|]. constructor; [apply dog_foot_new with 3%Z; cbn; tauto|constructor].
  - lra.
  - lra.
  - lra.
  - apply even_sound.
  - apply even_keeps.
  - apply even_wf.
  - exact pull_one.
  - apply feet_calls.
  - apply feet_calls.
  - apply Forall_forall. intros p Hp. apply repeat_spec in Hp. subst p. repeat split.
  - discriminate.
  - intros i Hi. destruct i as [|[|i]]; reflexivity.
Qed.
(** examples/cassie_alip.py on the robot with one equality. *)
Lemma alip_runs k : exists t tm tr qn, fst (set_vmap_dimension 0 (state (setup rig (tscalar (-1)) (tscalar 1) squat ++ []))) = Ok t /\ set_axes alip_places t = Ok tm /\
  vmapped_loop rig_lib pull_solver rig (1 / 100) 2 tm ((setup rig (tscalar (-1)) (tscalar 1) squat ++ []) ++ [WCompile 0]) (map alip_turn (repeat ((two_coms, two_poses), (other_poses, two_poses)) (S k))) two_starts (fun _ => [0; 0; 0; 0]) tr qn /\
  forall i, (i < 2)%nat -> in_range rig (two_starts i) -> Forall (exact_turn rig_lib pull_solver rig) (lane i tr) -> in_range rig (qn i) /\ Forall (fun t => in_range rig (fst (fst t) i)) tr.
Proof.
  unfold squat. apply alip_batches with (s1 := "tip"%string) (s2 := "tip"%string) (s3 := "tip"%string) (i1 := 4%Z) (i2 := 4%Z) (i3 := 4%Z) (k1 := 10) (k2 := 1) (k3 := 5) (g1 := 10) (g2 := 2) (g3 := 1 / 10) (g4 := 10) (g5 := 100) (lm := 1 / 1000) (d1 := 0);
    try exact rig_tip; try apply squat_foot_new; try lra.
  - exact rig_sound.
  - vm_compute; lia.
  - repeat constructor.
  - exact squat_com_new.
  - exact squat_torso_new.
  - reflexivity.
  - reflexivity.
  - exact rig_lib_sound.
  - exact rig_keeps.
  - exact rig_rows.
  - exact pull_one.
  - constructor.
  - constructor.
  - apply Forall_forall. intros p Hp. apply repeat_spec in Hp. subst p. repeat split.
  - discriminate.
  - intros i Hi. destruct i as [|[|i]]; reflexivity.
Qed.
(** A self-collision barrier between listed bodies with an exclusion: the pairs it checks. *)
Definition limbs : list cbody := [CBStr "base"; CBInt 2; CBInt 3; CBStr "tip"]%string%Z.
Definition limb_ids : list Z := [1; 2; 3; 4]%Z.
Lemma limbs_case : Forall2 (refers animal) limbs limb_ids /\ Forall2 (refers2 animal) [(CBInt 2, CBStr "tip"%string)]%Z [(2, 4)]%Z /\
  forall ids ex ps, Forall2 (refers animal) limbs ids -> Forall2 (refers2 animal) [(CBInt 2, CBStr "tip"%string)]%Z ex -> checks_exactly animal ids ex ps -> ps <> [] /\ full_table (l_coll rig_lib) animal ps.
Proof.
  assert (A : Forall2 (refers animal) limbs limb_ids).
  { unfold limbs, limb_ids. constructor; [apply by_name; [now left|split; cbn; lia]|]. constructor; [apply by_id; split; cbn; lia|]. constructor; [apply by_id; split; cbn; lia|]. constructor; [apply by_name; [right; now left|split; cbn; lia]|constructor]. }
  assert (B : Forall2 (refers2 animal) [(CBInt 2, CBStr "tip"%string)]%Z [(2, 4)]%Z).
  { constructor; [|constructor]. split; [apply by_id; split; cbn; lia|apply by_name; [right; now left|split; cbn; lia]]. }
  split; [exact A|]. split; [exact B|]. intros ids ex ps H1 H2 (_ & H). split; [|apply one_contact_ok].
  destruct (generated animal _ ids _ ex (proj1 (proj2 animal_sound)) (proj1 (proj2 (proj2 (proj2 animal_sound)))) H1 H2) as (exs & ps' & E1 & E2 & _ & C).
  vm_compute in E1. injection E1 as <-. vm_compute in E2. injection E2 as <-. match type of C with forall g1 g2, In _ (?p :: _) <-> _ => pose proof (proj1 (C (fst p) (snd p)) (or_introl eq_refl)) as K end.
  apply H in K. intros ->. destruct K.
Qed.
