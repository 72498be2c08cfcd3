(** Two turns of the loop: a hinge pulled to 0 by a posture task. *)
From Verif Require Import Base Lin LinFacts Mjx Typing Component Problem SpecComponent SpecJoint SpecHistory SpecProblem SpecShape SpecFit SpecTrace SpecSetup SpecValue Conf JaxComponents LocalIK SpecQP SpecMotion SpecLoop SpecSolve SpecClosed.
From Verif Require Import SetupFacts SetupFacts2 SetupCases QPFacts QPCases MotionCases ValueCases FitFacts FitFacts3 FitCases DescentCases.
Open Scope R_scope.

Definition half_pull := pull_task (1 / 2).
Definition aim : wop := WCop 0 (OpTargetQ (tvec [0])).
Lemma pull_setup : setup one (tscalar (-4)) (tscalar 4) [half_pull; bar1] ++ [aim] = pull_prog (1 / 2).
Proof. reflexivity. Qed.
Lemma aim_call : loop_call aim /\ keeps_limits aim.
Proof.
  split; [|exact I]. split; [split; [apply tune_call; exact I|exact I]|]. split; [exact I|]. now exists [0].
Qed.
Lemma pull_one : one_entry_each pull_solver.
Proof. intros Q. cbn. unfold vneg. now rewrite map_length. Qed.
Lemma pull_turn x s : exists sol, solve even_lib pull_solver one (tvec [x]) s (pull_pd (1 / 2)) = Ok (sol, [- (1 / 2 * x)]).
Proof.
  destruct (pull_data (1 / 2) x) as [D A].
  destruct (program_solves even_lib pull_solver one _ 0 _ (tvec [x]) s (pull_tidy (1 / 2)) (pull_compiled (1 / 2)) (even_sound one) eq_refl D A) as [(Q & EQ & E)|(_ & j & J & Hj & Hb & HJ & H0)].
  - exists (pull_solver Q). rewrite E. f_equal. f_equal. unfold pull_solver. cbn [sol_primal]. rewrite (pull_c (1 / 2) x Q EQ). reflexivity.
  - exfalso. rewrite pull_comps in Hj. destruct Hj as [<-|[<-|[]]]; [discriminate Hb|]. destruct (pull_bar_at x) as [_ B]. cbn [t_data tvec] in HJ. unfold at_ in B. rewrite B in HJ. injection HJ as <-.
    revert H0. unfold frob2, dot, vmul, vmap2. cbn. lra.
Qed.
(** From 1, gain 1/2, step 1: 1, 1/2, 1/4. *)
Lemma pull_loop : exists tr, control_loop even_lib pull_solver one 1 (setup one (tscalar (-4)) (tscalar 4) [half_pull; bar1]) [[aim]; []] [1] [0] tr [1 / 2 + 1 * - (1 / 2 * (1 / 2))] /\
  Forall (exact_turn even_lib pull_solver one) tr /\ map (fun t => fst (fst t)) tr = [[1]; [1 / 2]] /\ map snd tr = [[- (1 / 2 * 1)]; [- (1 / 2 * (1 / 2))]].
Proof.
  destruct (pull_turn 1 [0]) as [s1 T1]. destruct (pull_turn (1 / 2) [- (1 / 2 * 1)]) as [s2 T2].
  exists [([1], pull_pd (1 / 2), [- (1 / 2 * 1)]); ([1 / 2], pull_pd (1 / 2), [- (1 / 2 * (1 / 2))])].
  split; [|split; [|split; reflexivity]].
  - apply (loop_turn _ _ _ _ _ _ _ _ _ _ s1 _ [1 / 2]); [exact (pull_compiled (1 / 2))|exact T1|cbn; f_equal; f_equal; lra|].
    apply (loop_turn _ _ _ _ _ _ _ _ _ _ s2 _ [1 / 2 + 1 * - (1 / 2 * (1 / 2))]); [vm_compute; reflexivity|exact T2|reflexivity|constructor].
  - constructor; [|constructor; [|constructor]]; intros Q HQ; eapply (pull_solves (1 / 2)); try exact HQ; lra.
Qed.
Lemma pull_ready : Forall constructed [half_pull; bar1] /\ Forall (fun c => wf_arrays (c_at c)) [half_pull; bar1] /\ NoDup (map nm [half_pull; bar1]) /\
  Forall (fun c => exists d, suits one c d) [half_pull; bar1] /\ Forall (plain one) [half_pull; bar1] /\ Forall (tracks one) [half_pull; bar1] /\
  Forall (mild 1) [half_pull; bar1] /\ Forall (in_limits one [1]) [half_pull; bar1].
Proof.
  split; [repeat constructor; [exact (pull_made _)|exact bar1_made]|].
  split; [constructor; [split; reflexivity|constructor; [split; [reflexivity|exact I]|constructor]]|].
  split; [constructor; [intros [X|[]]; discriminate X|constructor; [intros []|constructor]]|].
  split. { constructor; [exists 1%nat|constructor; [exists 2%nat|constructor]]; cbn; repeat split; auto; try (left; reflexivity); try (intros X; discriminate X). }
  split; [constructor; [cbn; intros t X; discriminate X|constructor; [cbn; intros t [X|X]; discriminate X|constructor]]|].
  split; [constructor; [exact I|constructor; [cbn; discriminate|constructor]]|].
  split; [constructor; [exact I|constructor; [|constructor]]; cbn; split; [reflexivity|]; constructor; [lra|constructor]|].
  constructor; [exact I|constructor; [|constructor]]. unfold in_limits. cbn. split; repeat constructor; cbn; lra.
Qed.
Lemma turn_loops : Forall loop_call turn /\ Forall keeps_limits turn.
Proof.
  destruct turn_steers as (A & B & C). split; [|constructor; [exact I|constructor; [exact I|constructor; [constructor; [lra|constructor; [lra|constructor]]|constructor; [exact I|constructor]]]]].
  apply Forall_forall. intros o Ho. rewrite Forall_forall in A, B, C. split; [|split]; auto.
Qed.
Lemma rig_range : in_range rig [0; 0; 0; 0] /\ ~ in_range rig [0; 3; 0; 0].
Proof.
  split.
  - intros j t Hj _. do 4 (destruct j as [|j]; [cbn; lra|]). destruct j; discriminate.
  - intros H. specialize (H 1%nat JSlide eq_refl eq_refl). cbn in H. lra.
Qed.
