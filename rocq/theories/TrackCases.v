(** A hinge that follows a target moving at constant speed. *)
From Verif Require Import Base Lin LinFacts Mjx Typing Component Problem SpecComponent SpecJoint SpecHistory SpecProblem SpecShape SpecFit SpecValue Witness CompThms2 Rot SpecConf Conf FrameJac Collide JaxComponents LocalIK SpecQP SpecMotion SpecLoop SpecDeriv.
From Verif Require Import MotionFacts MotionFacts2 LoopFacts QPFacts QPThms QPThms2 QPThms3 QPThms4 QPCases MotionCases ConfCases ValueCases FitFacts FitFacts3 FitCases SpecSolve SolveFacts SolveThms SpecDescent DescentFacts DescentFacts2 DescentThms DescentThms2 DescentCases SpecGoals GoalThms GoalThms2 GoalCases SpecTol SpecStep StepFacts StepThms SpecMove MoveThms MoveThms2 SpecTrack TrackFacts DerivCases.
Open Scope R_scope.

Section Chase.
Context (t : R).
Let g : R := 1 / 2.
Definition chase_prog : list wop := [WNewProblem one (tscalar (-4)) (tscalar 4); WNewComp (pull_task (1 / 2)); WAdd 0 0; WCop 0 (OpTargetQ (tvec [t]))].
Definition chase_pd : jdata := Eval vm_compute in result (fst (step (WCompile 0) (run chase_prog empty_world))).
Definition chase_j : jaxc := Eval vm_compute in get_j (fst (jax_component (history [OpModel one; OpTargetQ (tvec [t])] (pull_task (1 / 2))))) dummy_j.
Lemma chase_comps : comps_of chase_pd = [chase_j]. Proof. reflexivity. Qed.
Lemma chase_compiled : compiled_by chase_prog 0 chase_pd. Proof. vm_compute. reflexivity. Qed.
Lemma chase_tidy : tidy one chase_prog.
Proof.
  split; [apply chain_sound|]. split; [repeat constructor; exact (pull_made (1 / 2))|]. split; [repeat (constructor; [first [exact I|reflexivity]|]); constructor|].
  split; [repeat constructor|]. split; [repeat (constructor; [first [exact I|reflexivity|split; [reflexivity|first [exact I|reflexivity]]]|]); constructor|].
  intros k o Hk Hb. do 4 (destruct k as [|k]; [injection Hk as <-; first [contradiction | left; eexists; vm_compute; reflexivity]|]). destruct k; discriminate.
Qed.
Lemma chase_is : joint_task None chase_j /\ has_target chase_j [t].
Proof.
  split; [|do 3 eexists; reflexivity].
  exists "pull"%string, (tscalar 1), (tscalar (1 / 2)), None, 0, (pull_task (1 / 2)), [OpModel one; OpTargetQ (tvec [t])]. split; [exact (pull_new (1 / 2))|]. split; [repeat constructor|]. split; [cbn -[update_model]; split; [vm_compute; reflexivity|repeat split]|vm_compute; reflexivity].
Qed.
Lemma chase_at x : call even_lib chase_j (at_ x) = Ok [x - t] /\ jacobian even_lib chase_j (at_ x) = Ok [[1]].
Proof. split; [reflexivity|vm_compute; reflexivity]. Qed.
Lemma chase_gain : j_gain chase_j = [1 / 2]. Proof. reflexivity. Qed.
Lemma chase_admissible x u : -4 <= u <= 4 -> admissible even_lib (at_ x) chase_pd [u].
Proof.
  intros H. split; [reflexivity|]. cbn [chase_pd jd_vmin jd_vmax]. split; [cbn; apply vle1; lra|]. split; [cbn; apply vle1; lra|]. rewrite chase_comps. constructor; [split; intros K; discriminate K|constructor].
Qed.
Lemma chase_cost x u : total_cost even_lib (at_ x) (comps_of chase_pd) [u] (1 / 2 * ((u + 1 / 2 * (x - t)) * (u + 1 / 2 * (x - t)))).
Proof.
  destruct (chase_at x) as [A1 A2]. rewrite chase_comps. eexists. split.
  - constructor; [eapply cost_task; [reflexivity|exact A2|exact A1]|constructor].
  - unfold sq, gained, mv, vadd, dot, vmul, vmap2, frob2. cbn. field.
Qed.
Lemma chase_best x : -4 <= - (1 / 2 * (x - t)) <= 4 -> best even_lib (at_ x) chase_pd [- (1 / 2 * (x - t))].
Proof.
  intros H1. split; [now apply chase_admissible|]. eexists. split; [apply chase_cost|]. intros w (Lw & _). destruct w as [|u [|]]; try discriminate. eexists. split; [apply chase_cost|]. pose proof (Rle_0_sqr (u + 1 / 2 * (x - t))) as K. unfold Rsqr in K. lra.
Qed.
Lemma chase_data x : wf_data one (at_ x) /\ Forall (accepted even_lib (at_ x)) (comps_of chase_pd).
Proof. split; [now apply even_wf|]. rewrite chase_comps. constructor; [exists [t]; reflexivity|constructor]. Qed.
Lemma chase_meets x u : u = - (1 / 2 * (x - t)) -> meets_goals even_lib (at_ x) [u] chase_pd.
Proof.
  intros ->. unfold meets_goals. rewrite chase_comps. constructor; [|constructor]. intros _ J e EJ Ee. destruct (chase_at x) as [A1 A2]. rewrite A2 in EJ. injection EJ as <-. rewrite A1 in Ee. injection Ee as <-.
  unfold gained, mv, dot, vneg, vmul, vmap2. cbn. f_equal. lra.
Qed.
Lemma chase_cares : Forall nonneg_weights (comps_of chase_pd) /\ Forall cares (comps_of chase_pd) /\ forall x, Forall (quiet even_lib (at_ x)) (comps_of chase_pd).
Proof.
  rewrite chase_comps. split; [|split].
  - constructor; [|constructor]. cbn. lra.
  - constructor; [|constructor]. intros _ x Hx H y Hy. rewrite chase_gain in Hx. destruct x as [|a [|]]; try discriminate. destruct Hy as [<-|[]]. apply H. unfold weight_of, mv, dot, vmul, vmap2. cbn. left. lra.
  - intros x. constructor; [|constructor]. left. reflexivity.
Qed.
End Chase.

(** Targets 0, 1, 2, ... and the hinge starts at 0. *)
Definition run_e (k : nat) : R := - ((1 - (1 - 1 / 2 * 1) ^ k) * (1 / (1 / 2))).
Definition run_t (k : nat) : R := INR k.
Definition run_q (k : nat) : vec := [run_t k + run_e k].
Definition run_v (k : nat) : vec := [- (1 / 2 * run_e k)].
Definition run_d (k : nat) (u : R) : mjdata := update even_lib one [run_t k + run_e k + u * - (1 / 2 * run_e k)].
Definition run_j (k : nat) : jaxc := chase_j (run_t k).
Lemma run_range k : -2 <= run_e k <= 0.
Proof. unfold run_e. assert (0 <= (1 - 1 / 2 * 1) ^ k <= 1) by (induction k; cbn; lra). split; [|]; lra. Qed.
Lemma run_next k : run_t (S k) + run_e (S k) = run_t k + run_e k + 1 * - (1 / 2 * run_e k).
Proof. unfold run_e, run_t. rewrite S_INR. cbn [pow]. lra. Qed.
Lemma one_int x v u : integrate one [x] [v] u = Ok [x + u * v].
Proof. rewrite straight_integrate; [reflexivity|apply sound_wf, chain_sound|reflexivity|reflexivity|reflexivity]. Qed.
Lemma run_chasing : chasing 0 1 even_lib one 1 run_q run_v run_d run_j.
Proof.
  intros k. split; [unfold run_q, run_v; rewrite one_int; do 2 f_equal; symmetry; apply run_next|]. split; [unfold run_d, run_q; do 2 f_equal; ring|].
  split; [intros u x _ H; unfold run_q, run_v in H; rewrite one_int in H; injection H as <-; reflexivity|]. split.
  - destruct (chase_is (run_t k)) as [A B]. exact (straight_joint_task even_lib one None (run_j k) [run_t k] 1 (run_q k) (run_v k) A B eq_refl (even_keeps one) (sound_wf one (chain_sound _)) eq_refl eq_refl eq_refl).
  - split; [reflexivity|]. intros e e' Ee Ee'. destruct (chase_at (run_t k) (run_t (S k) + run_e (S k))) as [A _]. destruct (chase_at (run_t (S k)) (run_t (S k) + run_e (S k))) as [A' _]. unfold at_ in A, A'. unfold run_j, run_q in Ee, Ee'. rewrite A in Ee. rewrite A' in Ee'. apply Ok_inj in Ee. apply Ok_inj in Ee'. subst e e'.
    assert (T : run_t (S k) = run_t k + 1) by apply S_INR. rewrite T. constructor; [|constructor]. apply abs_between. lra.
Qed.
Lemma run_ready k : tidy one (chase_prog (run_t k)) /\ compiled_by (chase_prog (run_t k)) 0 (chase_pd (run_t k)) /\ In (run_j k) (comps_of (chase_pd (run_t k))) /\ wf_data one (update even_lib one (run_q k)) /\ Forall (accepted even_lib (update even_lib one (run_q k))) (comps_of (chase_pd (run_t k))).
Proof. split; [apply chase_tidy|]. split; [apply chase_compiled|]. split; [left; reflexivity|]. apply chase_data. Qed.
Lemma run_best k : let d := update even_lib one (run_q k) in let pd := chase_pd (run_t k) in best even_lib d pd (run_v k) /\ Forall nonneg_weights (comps_of pd) /\ Forall cares (comps_of pd) /\ Forall (quiet even_lib d) (comps_of pd) /\ (exists w, admissible even_lib d pd w /\ meets_goals even_lib d w pd) /\ seeks (run_j k) = true.
Proof.
  intros d pd. pose proof (run_range k) as R. pose proof (chase_best (run_t k) (run_t k + run_e k)) as B. replace (run_t k + run_e k - run_t k) with (run_e k) in B by ring. destruct (chase_cares (run_t k)) as (C1 & C2 & C3).
  split; [apply B; lra|]. split; [exact C1|]. split; [exact C2|]. split; [apply C3|]. split; [|reflexivity]. exists (run_v k). split; [apply chase_admissible; lra|]. apply chase_meets. ring.
Qed.
Lemma run_lag k : exists e, call even_lib (run_j k) (update even_lib one (run_q k)) = Ok e /\ nth 0 e 0 = run_e k.
Proof. destruct (chase_at (run_t k) (run_t k + run_e k)) as [A _]. eexists. split; [exact A|]. cbn. ring. Qed.
