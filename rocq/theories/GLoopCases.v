(** Concrete loops for PropsGLoop. *)
From Verif Require Import Base Lin LinFacts Mjx Typing Component Problem SpecComponent SpecJoint SpecHistory SpecTyping SpecCollision SpecTree SpecShape SpecContact SpecSelf SpecValue SpecProblem SpecQP SpecFit SpecTrace SpecSetup.
From Verif Require Import CollideFacts2 BindThms2 JaxComponents GlobalIK Conf Witness CompThms2 FitFacts FitFacts3 FitCases CollideCases SetupFacts2 SetupFacts3 SetupFacts4 SetupFacts5 SetupCases SpecMotion MotionCases ValueCases SpecGlobal SpecClosed SpecGLoop GlobalFacts2 GLoopFacts GLoopThms GLoopThms2 DescentCases ClosedCases QPCases.
Open Scope R_scope.
#[local] Arguments update_model : simpl never.

(** Differentiation that traces the function first. *)
Definition tracing_grad : gradient := fun f x => match f x with Ok _ => true_grad f x | Err e => Err e end.
Lemma tracing_ok : traces tracing_grad /\ sound_grad tracing_grad /\ grad_keeps_length tracing_grad.
Proof.
  split; [|split].
  - split; [intros f x [y E]; unfold tracing_grad; rewrite E; eexists; split; [reflexivity|]; now rewrite map_length, seq_length|].
    intros f x e E. unfold tracing_grad. now rewrite E.
  - intros f F x g Hl Hf Hd. unfold tracing_grad. rewrite (Hf x eq_refl). now apply true_grad_sound with F.
  - intros f x g. unfold tracing_grad. destruct (f x); [apply true_grad_length|discriminate].
Qed.
Lemma descent_length r : step_keeps_length (descent r).
Proof. intros g st. apply map_length. Qed.

Lemma rig_pairs ps : checks_exactly rig (all_bodies rig) [] ps -> ps <> [] /\ full_table (l_coll rig_lib) rig ps.
Proof.
  intros (_ & H). split; [|apply one_contact_ok].
  destruct (generated rig _ (all_bodies rig) [] [] (proj1 (proj2 rig_sound)) (proj1 (proj2 (proj2 (proj2 rig_sound)))) (refers_all rig) (Forall2_nil _)) as (exs & ps' & A & B & _ & C).
  vm_compute in A. injection A as <-. vm_compute in B. injection B as <-. match type of C with forall g1 g2, In _ (?p :: _) <-> _ => pose proof (proj1 (C (fst p) (snd p)) (or_introl eq_refl)) as K end.
  apply H in K. intros ->. destruct K.
Qed.
Definition rig_equality : comp := unwrap (new_model_equality "eq" (tscalar 1) true None) none.
Lemma rig_equality_case : constructed rig_equality /\ constraint_component rig_equality /\ wf_arrays (c_at rig_equality) /\ suits rig rig_equality 3 /\ plain rig rig_equality /\
  (forall q, List.length q = m_nq rig -> evaluates rig_lib rig q rig_equality).
Proof.
  split; [apply (made_model_equality "eq" (tscalar 1) true None); reflexivity|]. split; [exact I|]. split; [repeat split|]. split; [|split; [exact I|intros q Hq; reflexivity]].
  split; [now left|]. cbn. split; [exact I|]. split; [repeat constructor|reflexivity].
Qed.
(** A posture task alone, learning rate [r] and gain 1/2, one hinge. *)
Definition lone_prog : list wop := setup one (tscalar (-4)) (tscalar 4) [half_pull] ++ [aim].
Definition lone_pd : jdata := Eval vm_compute in result (fst (step (WCompile 0) (run lone_prog empty_world))).
Lemma lone_case : compiled_by lone_prog 0 lone_pd /\ comps_of lone_pd = [pull_j (1 / 2)] /\ jd_model lone_pd = one /\ joint_task None (pull_j (1 / 2)) /\ has_target (pull_j (1 / 2)) [0] /\
  selected one None = [0%nat] /\ qpos_of one 0 = 0%nat /\ j_gain (pull_j (1 / 2)) = [1 / 2] /\ j_model (pull_j (1 / 2)) = one.
Proof.
  destruct (pull_is (1 / 2)) as (A & B & _).
  split; [vm_compute; reflexivity|]. split; [reflexivity|]. split; [reflexivity|]. split; [exact A|]. split; [exact B|]. repeat (split; [reflexivity|]). reflexivity.
Qed.
(** From 1: 1/2 after one step, 1/4 after two. *)
Lemma lone_steps : exists q1 q2, gsteps even_lib tracing_grad (descent (1 / 2)) one 1 lone_pd 1 [1] tt q1 /\ gsteps even_lib tracing_grad (descent (1 / 2)) one 1 lone_pd 2 [1] tt q2 /\ q1 = [1 / 2] /\ q2 = [1 / 4].
Proof.
  destruct lone_case as (_ & C & M & J & T & S & _ & G & N). destruct tracing_ok as (_ & Gs & _).
  destruct (posture_steps even_lib tracing_grad one lone_pd None (pull_j (1 / 2)) [0] Gs (even_keeps one) M N C J T (1 / 2) 1 1 [1] tt eq_refl) as [q1 H1].
  destruct (posture_steps even_lib tracing_grad one lone_pd None (pull_j (1 / 2)) [0] Gs (even_keeps one) M N C J T (1 / 2) 1 2 [1] tt eq_refl) as [q2 H2].
  exists q1, q2. split; [exact H1|]. split; [exact H2|].
  destruct (posture_after even_lib tracing_grad one lone_pd None (pull_j (1 / 2)) [0] Gs (even_keeps one) M N C J T (1 / 2) 1 1 [1] tt q1 eq_refl H1) as (L1 & A1 & _).
  destruct (posture_after even_lib tracing_grad one lone_pd None (pull_j (1 / 2)) [0] Gs (even_keeps one) M N C J T (1 / 2) 1 2 [1] tt q2 eq_refl H2) as (L2 & A2 & _).
  specialize (A1 0%nat 0%nat eq_refl). specialize (A2 0%nat 0%nat eq_refl). rewrite G in A1, A2. change (qpos_of one 0) with 0%nat in A1, A2. change (m_nq one) with 1%nat in L1, L2.
  destruct q1 as [|a1 [|? ?]]; try discriminate. destruct q2 as [|a2 [|? ?]]; try discriminate. cbn in A1, A2. split; f_equal; lra.
Qed.
