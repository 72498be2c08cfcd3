(** Two rival tasks on one hinge; the second one's target moves from 1 to 0. *)
From Verif Require Import Base Lin LinFacts Mjx Typing Component Problem SpecComponent SpecJoint SpecHistory SpecProblem SpecShape SpecFit SpecValue Witness CompThms2 Rot SpecConf Conf FrameJac Collide JaxComponents LocalIK SpecQP SpecMotion SpecLoop SpecDeriv.
From Verif Require Import MotionFacts MotionFacts2 LoopFacts QPFacts QPThms QPThms2 QPThms3 QPThms4 QPCases MotionCases ConfCases ValueCases FitFacts FitFacts3 FitCases SpecSolve SolveFacts SolveThms ScaleFacts SpecDescent DescentFacts DescentFacts2 DescentThms DescentThms2 DescentCases SpecGoals GoalThms GoalThms2 GoalCases SpecTrade TradeFacts TradeThms.
From Verif Require Import TradeCases SpecTol SpecMove MoveFacts MoveThms MoveThms2.
Open Scope R_scope.

Definition calm_prog : list wop := rival_prog 1 ++ [WCop 1 (OpTargetQ (tvec [0]))].
Definition calm_pd : jdata := Eval vm_compute in result (fst (step (WCompile 0) (run calm_prog empty_world))).
Definition calm_j : jaxc := retarget [0] (rival_j 1).
Lemma calm_compiled : compiled_by calm_prog 0 calm_pd. Proof. vm_compute. reflexivity. Qed.
Lemma calm_comps : jd_comps calm_pd = [("pull"%string, pull_j (1 / 2)); ("rival"%string, calm_j)]. Proof. reflexivity. Qed.
Lemma calm_cost u : cost_of even_lib (at_ 0) calm_j [u] (1 / 2 * (u * u)).
Proof.
  assert (A1 : call even_lib calm_j (at_ 0) = Ok [0 - 0]) by reflexivity. assert (A2 : jacobian even_lib calm_j (at_ 0) = Ok [[1]]) by (vm_compute; reflexivity). match goal with |- cost_of _ _ _ _ ?z => assert (E : z = 1 / 2 * sq (mv [[1 * 1]] (vadd (mv [[1]] [u]) (gained calm_j [0 - 0]))) + 1 / 2 * (0 * sq (mv [[1 * 1]] (gained calm_j [0 - 0]))) * sq [u]) end.
  { unfold sq, gained, mv, vadd, dot, vmul, vmap2. cbn. field. } rewrite E. eapply cost_task; [reflexivity|exact A2|exact A1].
Qed.
Lemma calm_best : best even_lib (at_ 0) calm_pd [0].
Proof.
  assert (T : forall u, total_cost even_lib (at_ 0) (comps_of calm_pd) [u] (1 / 2 * ((u + 1 / 2 * 0) * (u + 1 / 2 * 0)) + 1 / 2 * (u * u))).
  { intros u. unfold comps_of. rewrite calm_comps. cbn [map snd]. change [pull_j (1 / 2); calm_j] with ([pull_j (1 / 2)] ++ [calm_j]). apply total_app; [apply pull_own|apply total_one, calm_cost]. }
  assert (A : forall v, admissible even_lib (at_ 0) calm_pd v -> exists u, v = [u]). { intros v (Lv & _). destruct v as [|u [|]]; try discriminate. eauto. }
  split.
  - split; [reflexivity|]. cbn [calm_pd jd_vmin jd_vmax]. split; [cbn; apply vle1; lra|]. split; [cbn; apply vle1; lra|]. repeat constructor; intros K; discriminate K.
  - eexists. split; [apply T|]. intros w Hw. destruct (A w Hw) as (u & ->). eexists. split; [apply T|]. pose proof (Rle_0_sqr u) as K. unfold Rsqr in K. lra.
Qed.
Lemma calm_case : let d := update even_lib one [0] in let j := rival_j 1 in tidy one (rival_prog 1) /\ compiled_by (rival_prog 1) 0 (rival_pd 1) /\ registered (rival_prog 1) 0 "rival" 1 /\ In ("rival"%string, j) (jd_comps (rival_pd 1)) /\ (exists k, j_ext j = JTask [[1 * 1]] 0 k) /\
  target_of j = Some [1] /\ call even_lib j d = Ok [0 - 1] /\ aims [0] j (OpTargetQ (tvec [0])) /\ wf_data one d /\ Forall (accepted even_lib d) (comps_of (rival_pd 1)) /\ ~ automatic j /\
  Forall nonneg_weights (others "rival" (rival_pd 1)) /\ compiled_by calm_prog 0 calm_pd /\ best even_lib d (rival_pd 1) [1 / 4] /\ best even_lib d calm_pd [0] /\
  In (pull_j (1 / 2)) (others "rival" (rival_pd 1)) /\ resists even_lib 1 d (pull_j (1 / 2)) 1 /\
  (forall x, j_gain_fn j x = x) /\ sq (mv [[1 * 1]] (vmul (j_gain j) (vsub [0] [1]))) = 1 / 4 /\ sq (vsub [1 / 4] [0]) = 1 / 4 / (4 * 1).
Proof.
  cbv zeta. change (update even_lib one [0]) with (at_ 0). split; [apply rival_tidy|]. split; [apply rival_compiled|]. split.
  { eexists. split; [vm_compute; reflexivity|]. cbn. split; [now right; left|]. intros n [H|[H|[]]]; [discriminate|now injection H as <-]. }
  split; [right; now left|]. split; [eexists; reflexivity|]. split; [reflexivity|]. split; [reflexivity|]. split; [eapply aim_joint; reflexivity|]. split; [apply even_wf; reflexivity|].
  split; [unfold comps_of; rewrite rival_comps; constructor; [exists [0]; reflexivity|]; constructor; [exists [1]; reflexivity|constructor]|]. split; [intros []|]. split; [repeat constructor; unfold nonneg_weights; cbn; lra|]. split; [apply calm_compiled|].
  split; [replace (1 / 4) with (1 * 1 / (2 * (1 + 1 * 1))) by field; apply rival_best|]. split; [apply calm_best|]. split; [now left|]. split.
  { eapply resist_task with (J := [[1]]); [reflexivity|lra|apply pull_task_at|]. intros [|u [|]] H; try discriminate. unfold sq, mv, dot, vmul, vmap2. cbn. lra. }
  split; [reflexivity|]. unfold sq, mv, dot, vmul, vsub, vmap2. cbn. split; lra.
Qed.
