(** One hinge pulled to 0: without damping the goal is met, with damping it is not. *)
From Verif Require Import Base Lin LinFacts Mjx Typing Component Problem SpecComponent SpecJoint SpecHistory SpecProblem SpecShape SpecFit SpecValue Witness CompThms2 Rot SpecConf Conf FrameJac Collide JaxComponents LocalIK SpecQP SpecMotion SpecLoop SpecDeriv.
From Verif Require Import MotionFacts MotionFacts2 LoopFacts QPFacts QPThms QPThms2 QPThms3 QPThms4 QPCases MotionCases ConfCases ValueCases FitFacts FitFacts3 FitCases SpecSolve SolveFacts SolveThms SpecDescent DescentFacts DescentFacts2 DescentThms DescentThms2 DescentCases SpecGoals GoalThms GoalThms2.
Open Scope R_scope.

Lemma pull_cares g : Forall cares (comps_of (pull_pd g)).
Proof.
  rewrite pull_comps. constructor; [|constructor; [discriminate|constructor]]. apply (weighs_all_cares (pull_j g) (tscalar 1) 1); [|reflexivity|left; exists 1; split; [reflexivity|lra]].
  split; [split; [reflexivity|repeat constructor]|]. left. exists 1. split; [reflexivity|]. intros [|i] [|j] Hi Hj; try lia. cbn. ring.
Qed.
Lemma pull_quiet g d : Forall (quiet even_lib d) (comps_of (pull_pd g)).
Proof. rewrite pull_comps. constructor; [now left|]. constructor; [reflexivity|constructor]. Qed.
Lemma pull_meets g x : meets_goals even_lib (at_ x) [- (g * x)] (pull_pd g).
Proof.
  destruct (pull_task_at g x) as [A1 A2]. unfold meets_goals. rewrite pull_comps. constructor; [|constructor; [discriminate|constructor]]. intros _ J e EJ Ee. rewrite A2 in EJ. injection EJ as <-. rewrite A1 in Ee. injection Ee as <-.
  unfold gained, mv, dot, vneg, vmul, vmap2. cbn. f_equal. ring.
Qed.
Lemma pull_goal_case : let pd := pull_pd (1 / 2) in let d := update even_lib one [1 / 3] in tidy one (pull_prog (1 / 2)) /\ compiled_by (pull_prog (1 / 2)) 0 pd /\ sound_lib even_lib one /\ wf_data one d /\ Forall (accepted even_lib d) (comps_of pd) /\
  Forall nonneg_weights (comps_of pd) /\ Forall cares (comps_of pd) /\ best even_lib d pd [- (1 / 2 * (1 / 3))] /\ admissible even_lib d pd (vzero (m_nv one)) /\ moving [- (1 / 2 * (1 / 3))] /\ Forall (quiet even_lib d) (comps_of pd) /\ meets_goals even_lib d [- (1 / 2 * (1 / 3))] pd.
Proof.
  cbv zeta. destruct (pull_data (1 / 2) (1 / 3)) as [D A]. split; [apply pull_tidy|]. split; [apply pull_compiled|]. split; [apply even_sound|]. split; [exact D|]. split; [exact A|]. split; [rewrite pull_comps; repeat constructor; unfold nonneg_weights; cbn; lra|].
  split; [apply pull_cares|]. split; [apply (pull_best (1 / 2) (1 / 3)); lra|]. split; [apply (pull_admissible (1 / 2) (1 / 3)); exists 0; split; [reflexivity|lra]|]. split; [eexists; split; [now left|lra]|]. split; [apply pull_quiet|apply pull_meets].
Qed.
Lemma glide_goal_case : let pd := pull_pd (1 / 2) in let ds := fun t => update even_lib one (glide t) in
  Forall nonneg_weights (comps_of pd) /\ Forall cares (comps_of pd) /\ In (pull_j (1 / 2)) (comps_of pd) /\ seeks (pull_j (1 / 2)) = true /\ (forall x, j_gain_fn (pull_j (1 / 2)) x = x) /\ j_gain (pull_j (1 / 2)) = [1 / 2] /\ (forall b, flows even_lib 0 b glide_v ds (pull_j (1 / 2))) /\
  forall t, 0 < t -> wf_data one (ds t) /\ Forall (accepted even_lib (ds t)) (comps_of pd) /\ best even_lib (ds t) pd (glide_v t) /\ Forall (quiet even_lib (ds t)) (comps_of pd) /\ exists w, admissible even_lib (ds t) pd w /\ meets_goals even_lib (ds t) w pd.
Proof.
  cbv zeta. destruct glide_case as [G F]. split; [rewrite pull_comps; repeat constructor; unfold nonneg_weights; cbn; lra|]. split; [apply pull_cares|]. split; [now left|]. split; [reflexivity|]. split; [reflexivity|]. split; [reflexivity|].
  split; [intros b; specialize (F b); rewrite pull_comps in F; now inversion F|]. intros t Ht. destruct (G t Ht) as (A & B & C & D). split; [exact A|]. split; [exact B|]. split; [exact C|]. split; [apply pull_quiet|].
  exists (glide_v t). split; [exact (proj1 C)|]. exact (pull_meets (1 / 2) (exp (- (1 / 2) * t))).
Qed.
(** Steps of length 1 halve the angle. *)
Definition halve (k : nat) : vec := [(1 / 2) ^ k].
Definition halve_v (k : nat) : vec := [- (1 / 2 * (1 / 2) ^ k)].
Lemma halve_goal_case : let pd := pull_pd (1 / 2) in let ds := fun k => update even_lib one (halve k) in
  (forall k, integrate one (halve k) (halve_v k) 1 = Ok (halve (S k))) /\ (forall k, advances even_lib 1 (halve_v k) (ds k) (ds (S k)) (pull_j (1 / 2))) /\
  forall k, wf_data one (ds k) /\ Forall (accepted even_lib (ds k)) (comps_of pd) /\ best even_lib (ds k) pd (halve_v k) /\ Forall (quiet even_lib (ds k)) (comps_of pd) /\ exists w, admissible even_lib (ds k) pd w /\ meets_goals even_lib (ds k) w pd.
Proof.
  cbv zeta. assert (B : forall k, 0 < (1 / 2) ^ k <= 1). { induction k as [|k IH]; cbn; lra. }
  split; [intros k; unfold halve, halve_v; cbn; f_equal; f_equal; field|]. split.
  - intros k e J Ee EJ. destruct (pull_task_at (1 / 2) ((1 / 2) ^ k)) as [A1 A2], (pull_task_at (1 / 2) ((1 / 2) ^ S k)) as [A3 _]. pose proof (eq_trans (eq_sym A1) Ee) as X. injection X as <-. pose proof (eq_trans (eq_sym A2) EJ) as X. injection X as <-.
    transitivity (@Ok vec [(1 / 2) ^ S k - 0]); [exact A3|]. unfold halve_v, vadd, vscale, mv, dot, vmul, vmap2. cbn. f_equal. f_equal. field.
  - intros k. specialize (B k). destruct (pull_data (1 / 2) ((1 / 2) ^ k)) as [D A]. split; [exact D|]. split; [exact A|]. assert (T : best even_lib (at_ ((1 / 2) ^ k)) (pull_pd (1 / 2)) (halve_v k)) by (apply (pull_best (1 / 2)); lra). split; [exact T|]. split; [apply pull_quiet|].
    exists (halve_v k). split; [exact (proj1 T)|]. exact (pull_meets (1 / 2) ((1 / 2) ^ k)).
Qed.

(** The same pull with Levenberg-Marquardt damping 1. *)
Definition damp_task : comp := mkC (mkA "pull" None (tscalar (1 / 2)) (fun x => x) (-1) None [] (XTask (tscalar 1) 1 (TJoint (mkJT None None None)))) true None.
Lemma damp_new : new_joint_task "pull" (tscalar 1) (tscalar (1 / 2)) None 1 None = Ok damp_task.
Proof. unfold new_joint_task, init_task. cbn. destruct (Rlt_dec 1 0); [lra|reflexivity]. Qed.
Lemma damp_made : constructed damp_task. Proof. eapply made_joint_task. exact damp_new. Qed.
Definition damp_prog : list wop :=
  [WNewProblem one (tscalar (-4)) (tscalar 4); WNewComp damp_task; WNewComp bar1; WAdd 0 0; WAdd 0 1; WCop 0 (OpTargetQ (tvec [0]))].
Definition damp_pd : jdata := Eval vm_compute in result (fst (step (WCompile 0) (run damp_prog empty_world))).
Definition damp_j : jaxc := Eval vm_compute in get_j (fst (jax_component (history pull_ops damp_task))) dummy_j.
Lemma damp_comps : comps_of damp_pd = [damp_j; lim1_j]. Proof. reflexivity. Qed.
Lemma damp_compiled : compiled_by damp_prog 0 damp_pd. Proof. vm_compute. reflexivity. Qed.
Lemma damp_tidy : tidy one damp_prog.
Proof.
  split; [apply chain_sound|]. split; [repeat constructor; [exact damp_made|exact bar1_made]|]. split; [repeat (constructor; [first [exact I|reflexivity]|]); constructor|].
  split; [repeat constructor|]. split; [repeat (constructor; [first [exact I|reflexivity|split; [reflexivity|first [exact I|reflexivity]]]|]); constructor|].
  intros k o Hk Hb. do 6 (destruct k as [|k]; [injection Hk as <-; first [contradiction | left; eexists; vm_compute; reflexivity]|]). destruct k; discriminate.
Qed.
Lemma damp_task_at x : call even_lib damp_j (at_ x) = Ok [x - 0] /\ jacobian even_lib damp_j (at_ x) = Ok [[1]].
Proof. split; [reflexivity|vm_compute; reflexivity]. Qed.
Lemma damp_admissible x v : admissible even_lib (at_ x) damp_pd v <-> exists u, v = [u] /\ -4 <= u <= 4 /\ - (x + 1) <= u <= 1 - x.
Proof.
  destruct (pull_bar_at x) as [B1 B2]. unfold admissible. rewrite damp_comps. split.
  - intros (Lv & A & B & C). destruct v as [|u [|]]; try discriminate. exists u. split; [reflexivity|]. cbn in A, B. apply vle1 in A. apply vle1 in B. inversion C as [|? ? _ C']; subst. inversion C' as [|? ? [C1 _] _]; subst.
    specialize (C1 eq_refl _ _ B2 B1). unfold gained, vle, mv, dot, vneg, vmul, vmap2 in C1. cbn in C1. inversion C1 as [|? ? ? ? K1 K2]; subst. inversion K2; subst. lra.
  - intros (u & -> & H1 & H2). split; [reflexivity|]. cbn [damp_pd jd_vmin jd_vmax]. split; [cbn; apply vle1; lra|]. split; [cbn; apply vle1; lra|]. constructor; [split; intros K; discriminate K|]. constructor; [|constructor].
    split; intros K; [|discriminate K]. intros J e EJ Ee. rewrite B2 in EJ. injection EJ as <-. rewrite B1 in Ee. injection Ee as <-. unfold gained, vle, mv, dot, vneg, vmul, vmap2. cbn. repeat (constructor; [lra|]). constructor.
Qed.
Lemma damp_cost x u : total_cost even_lib (at_ x) (comps_of damp_pd) [u] (1 / 2 * ((u + x / 2) * (u + x / 2)) + 1 / 2 * (x / 2 * (x / 2)) * (u * u)).
Proof.
  destruct (damp_task_at x) as [A1 A2], (pull_bar_at x) as [B1 B2]. rewrite damp_comps. eexists. split.
  - constructor; [eapply cost_task; [reflexivity|exact A2|exact A1]|]. constructor; [|constructor]. eapply cost_barrier; [reflexivity|exact B2|]. unfold frob2, dot, vmul, vmap2. cbn. lra.
  - unfold sq, gained, mv, vadd, dot, vmul, vmap2, frob2. cbn. field.
Qed.
Lemma damp_case : let d := update even_lib one [1] in tidy one damp_prog /\ compiled_by damp_prog 0 damp_pd /\ wf_data one d /\ Forall (accepted even_lib d) (comps_of damp_pd) /\ Forall nonneg_weights (comps_of damp_pd) /\ Forall cares (comps_of damp_pd) /\
  best even_lib d damp_pd [- (2 / 5)] /\ admissible even_lib d damp_pd (vzero (m_nv one)) /\ moving [- (2 / 5)] /\ (admissible even_lib d damp_pd [- (1 / 2)] /\ meets_goals even_lib d [- (1 / 2)] damp_pd) /\ ~ Forall (quiet even_lib d) (comps_of damp_pd).
Proof.
  cbv zeta. split; [exact damp_tidy|]. split; [exact damp_compiled|]. split; [now apply even_wf|].
  split; [rewrite damp_comps; constructor; [exists [0]; reflexivity|]; constructor; [|constructor]; split; [exists [-1]|exists [1]]; split; reflexivity|].
  split; [rewrite damp_comps; repeat constructor; unfold nonneg_weights; cbn; lra|].
  split; [rewrite damp_comps; constructor; [|constructor; [discriminate|constructor]]; apply (weighs_all_cares damp_j (tscalar 1) 1); [|reflexivity|left; exists 1; split; [reflexivity|lra]];
    split; [split; [reflexivity|repeat constructor]|]; left; exists 1; split; [reflexivity|]; intros [|i] [|j] Hi Hj; try lia; cbn; ring|].
  split; [split; [apply (damp_admissible 1); eexists; split; [reflexivity|lra]|]; eexists; split; [apply (damp_cost 1)|]; intros w Hw; apply (damp_admissible 1) in Hw as (u & -> & _); eexists; split; [apply (damp_cost 1)|]; pose proof (Rle_0_sqr (u + 2 / 5)) as K; unfold Rsqr in K; nra|].
  split; [apply (damp_admissible 1); exists 0; split; [reflexivity|lra]|]. split; [eexists; split; [now left|lra]|]. destruct (damp_task_at 1) as [A1 A2]. split.
  - split; [apply (damp_admissible 1); eexists; split; [reflexivity|lra]|]. unfold meets_goals. rewrite damp_comps. constructor; [|constructor; [discriminate|constructor]]. intros _ J e EJ Ee. pose proof (eq_trans (eq_sym A1) Ee) as X. injection X as <-. pose proof (eq_trans (eq_sym A2) EJ) as X. injection X as <-.
    unfold gained, mv, dot, vneg, vmul, vmap2. cbn. f_equal. field.
  - intros Q. rewrite damp_comps in Q. inversion Q as [|? ? Q1 _]; subst. unfold quiet in Q1. cbn [j_ext damp_j] in Q1. destruct Q1 as [Q1|Q1]; [lra|]. specialize (Q1 _ A1 _ (or_introl eq_refl)). unfold gained, dot, vmul, vmap2 in Q1. cbn in Q1. lra.
Qed.
