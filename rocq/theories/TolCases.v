(** One hinge with range [-1, 1] and a solver that is off by a tenth. *)
From Verif Require Import Base Lin LinFacts Mjx Typing Component Problem SpecComponent SpecJoint SpecHistory SpecProblem SpecShape SpecFit SpecTrace SpecSetup SpecValue Conf JaxComponents LocalIK SpecQP SpecMotion SpecLoop SpecSolve SpecClosed SpecDescent.
From Verif Require Import SetupFacts SetupFacts2 SetupCases QPFacts QPThms3 QPCases MotionCases ValueCases FitFacts FitFacts3 FitCases SolveThms DescentFacts DescentFacts2 DescentThms DescentThms2 DescentCases SpecGoals GoalCases ClosedCases SpecTol TolFacts TolThms TolThms2 TolThms3.
Open Scope R_scope.

Lemma vle_by1 e a b : vle_by e [a] [b] <-> a <= b + e.
Proof. unfold vle_by. split; [intros H; inversion H; assumption|intros; constructor; [assumption|constructor]]. Qed.
Lemma pull_nearly g e x v : nearly e even_lib (at_ x) (pull_pd g) v <-> exists u, v = [u] /\ -4 - e <= u <= 4 + e /\ - (x + 1) - e <= u <= 1 - x + e.
Proof.
  destruct (pull_bar_at x) as [B1 B2]. unfold nearly. rewrite pull_comps. split.
  - intros (Lv & A & B & C). destruct v as [|u [|]]; try discriminate. exists u. split; [reflexivity|]. cbn in A, B. apply vle_by1 in A. apply vle_by1 in B. inversion C as [|? ? _ C']; subst. inversion C' as [|? ? [C1 _] _]; subst.
    specialize (C1 eq_refl _ _ B2 B1). unfold gained, vle_by, mv, dot, vneg, vmul, vmap2 in C1. cbn in C1. inversion C1 as [|? ? ? ? K1 K2]; subst. inversion K2; subst. lra.
  - intros (u & -> & H1 & H2). split; [reflexivity|]. cbn [pull_pd jd_vmin jd_vmax]. split; [cbn; apply vle_by1; lra|]. split; [cbn; apply vle_by1; lra|]. constructor; [split; intros K; discriminate K|]. constructor; [|constructor].
    split; intros K; [|discriminate K]. intros J e' EJ Ee. rewrite B2 in EJ. injection EJ as <-. rewrite B1 in Ee. injection Ee as <-. unfold gained, vle_by, mv, dot, vneg, vmul, vmap2. cbn. repeat (constructor; [lra|]). constructor.
Qed.
(** At the upper limit a velocity of 1/10 outwards misses its row by a tenth, not less. *)
Lemma row_case : let pd := pull_pd (1 / 2) in tidy one (pull_prog (1 / 2)) /\ compiled_by (pull_prog (1 / 2)) 0 pd /\ sound_lib even_lib one /\ wf_data one (at_ 1) /\ Forall (accepted even_lib (at_ 1)) (comps_of pd) /\
  (exists Q, assemble even_lib one pd (at_ 1) = Ok Q) /\ nearly (1 / 10) even_lib (at_ 1) pd [1 / 10] /\ ~ nearly (1 / 11) even_lib (at_ 1) pd [1 / 10].
Proof.
  cbv zeta. destruct (pull_data (1 / 2) 1) as [D A]. split; [apply pull_tidy|]. split; [apply pull_compiled|]. split; [apply even_sound|]. split; [exact D|]. split; [exact A|]. split.
  - destruct (program_solves even_lib pull_solver one _ 0 _ (tvec [1]) [] (pull_tidy (1 / 2)) (pull_compiled (1 / 2)) (even_sound one) eq_refl D A) as [(Q & EQ & _)|(_ & j & J & Hj & Hb & HJ & H0)]; [exists Q; exact EQ|].
    exfalso. rewrite pull_comps in Hj. destruct Hj as [<-|[<-|[]]]; [discriminate Hb|]. destruct (pull_bar_at 1) as [_ B]. cbn [t_data tvec] in HJ. unfold at_ in B. rewrite B in HJ. injection HJ as <-. revert H0. unfold frob2, dot, vmul, vmap2. cbn. lra.
  - split; [apply pull_nearly; eexists; split; [reflexivity|lra]|]. intros H. apply pull_nearly in H. destruct H as (u & E & H). injection E as <-. lra.
Qed.
(** Step 1/2, always a tenth too fast: the joint creeps from 1 towards 1 + 1/10, and the bound is attained. *)
Definition creep_q (k : nat) : vec := [1 + 1 / 10 * (1 - (1 / 2) ^ k)].
Definition creep_v (k : nat) : vec := [1 / 10 * (1 / 2) ^ k].
Lemma half_pow k : 0 < (1 / 2) ^ k <= 1.
Proof. split; [apply pow_lt; lra|]. induction k as [|k IH]; cbn; lra. Qed.
Lemma creep_case : let pd := pull_pd (1 / 2) in near_loop (1 / 10) even_lib one pd (1 / 2) creep_q creep_v /\ within_by (1 / 10 / 1) [-1] [1] (sel_pos one None (creep_q 0)) /\ ~ within_by 0 [-1] [1] (sel_pos one None (creep_q 1)) /\
  (forall x, List.length x = m_nq one -> wf_data one (update even_lib one x) /\ Forall (accepted even_lib (update even_lib one x)) (comps_of pd)) /\
  joint_barrier None lim1_j /\ In lim1_j (comps_of pd) /\ has_limits lim1_j [-1] [1] /\ keeps_scalars even_lib one /\ (forall x, j_gain_fn lim1_j x = x) /\ Forall (fun a => 0 < a /\ a * (1 / 2) <= 1) (j_gain lim1_j) /\ Forall (fun a => 1 <= a) (j_gain lim1_j) /\
  forall k, nth 1 (slack [-1] [1] (sel_pos one None (creep_q k))) 0 = (1 - 1 * (1 / 2)) ^ k * nth 1 (slack [-1] [1] (sel_pos one None (creep_q 0))) 0 - (1 - (1 - 1 * (1 / 2)) ^ k) * (1 / 10 / 1).
Proof.
  destruct lim1_case as (_ & _ & _ & D & E & F & G & _). cbv zeta. split; [|split; [|split; [|split; [|split; [exact D|split; [right; now left|split; [exact E|split; [apply even_keeps|split; [exact F|split; [|split]]]]]]]]]].
  - split; [reflexivity|]. intros k. pose proof (half_pow k) as P. split; [apply (pull_nearly (1 / 2) (1 / 10) (1 + 1 / 10 * (1 - (1 / 2) ^ k))); eexists; split; [reflexivity|lra]|]. unfold creep_q, creep_v. cbn -[pow]. cbn [pow]. f_equal. f_equal. lra.
  - cbn. split; apply vle_by1; lra.
  - cbn. intros [_ H]. apply vle_by1 in H. lra.
  - intros x Hx. destruct (list1 x Hx) as (y & ->). apply pull_data.
  - rewrite G. repeat (constructor; [lra|]). constructor.
  - rewrite G. repeat (constructor; [lra|]). constructor.
  - intros k. replace (1 - 1 * (1 / 2)) with (1 / 2) by lra. unfold slack, sel_pos, creep_q. cbn -[pow]. cbn [pow]. lra.
Qed.
(** The same in the documented loop: two turns of step 1/2. *)
Definition hasty : qpsolver := fun Q => mkSol (map (fun c => 11 / 10 - 2 * c) (qp_c Q)) [] [].
Lemma hasty_turn x s : exists sol, solve even_lib hasty one (tvec [x]) s (pull_pd (1 / 2)) = Ok (sol, [11 / 10 - 2 * (1 / 2 * x)]).
Proof.
  destruct (pull_data (1 / 2) x) as [D A].
  destruct (program_solves even_lib hasty one _ 0 _ (tvec [x]) s (pull_tidy (1 / 2)) (pull_compiled (1 / 2)) (even_sound one) eq_refl D A) as [(Q & EQ & E)|(_ & j & J & Hj & Hb & HJ & H0)].
  - exists (hasty Q). rewrite E. f_equal. f_equal. unfold hasty. cbn [sol_primal]. rewrite (pull_c (1 / 2) x Q EQ). reflexivity.
  - exfalso. rewrite pull_comps in Hj. destruct Hj as [<-|[<-|[]]]; [discriminate Hb|]. destruct (pull_bar_at x) as [_ B]. cbn [t_data tvec] in HJ. unfold at_ in B. rewrite B in HJ. injection HJ as <-.
    revert H0. unfold frob2, dot, vmul, vmap2. cbn. lra.
Qed.
Lemma hasty_near x u : -4 <= u <= 4 -> - (x + 1) <= u <= 11 / 10 - x -> near_turn (1 / 10) even_lib one ([x], pull_pd (1 / 2), [u]).
Proof.
  intros H1 H2 Q HQ. destruct (pull_data (1 / 2) x) as [D A]. apply (program_residual even_lib one _ 0 _ _ Q (1 / 10) [u] (pull_tidy (1 / 2)) (pull_compiled (1 / 2)) (even_sound one) D A HQ eq_refl). apply (pull_nearly (1 / 2) (1 / 10) x). eexists. split; [reflexivity|lra].
Qed.
Lemma hasty_loop : exists tr, control_loop even_lib hasty one (1 / 2) (setup one (tscalar (-4)) (tscalar 4) [half_pull; bar1]) [[aim]; []] [1] [0] tr [1 + 3 / 40] /\
  Forall (near_turn (1 / 10) even_lib one) tr /\ one_entry_each hasty /\ Forall (brisk 1 (1 / 2)) [half_pull; bar1] /\ Forall (in_limits_by (1 / 10 / 1) one [1]) [half_pull; bar1] /\ ~ Forall (in_limits one [1 + 3 / 40]) [half_pull; bar1].
Proof.
  destruct (hasty_turn 1 [0]) as [s1 T1]. replace (11 / 10 - 2 * (1 / 2 * 1)) with (1 / 10) in T1 by lra. destruct (hasty_turn (1 + 1 / 20) [1 / 10]) as [s2 T2]. replace (11 / 10 - 2 * (1 / 2 * (1 + 1 / 20))) with (1 / 20) in T2 by lra.
  exists [([1], pull_pd (1 / 2), [1 / 10]); ([1 + 1 / 20], pull_pd (1 / 2), [1 / 20])].
  split; [|split; [|split; [|split; [|split]]]].
  - apply (loop_turn _ _ _ _ _ _ _ _ _ _ s1 _ [1 + 1 / 20]); [exact (pull_compiled (1 / 2))|exact T1|cbn; f_equal; f_equal; lra|].
    apply (loop_turn _ _ _ _ _ _ _ _ _ _ s2 _ [1 + 3 / 40]); [vm_compute; reflexivity|exact T2|cbn; f_equal; f_equal; lra|constructor].
  - constructor; [|constructor; [|constructor]]; apply hasty_near; lra.
  - intros Q. cbn. now rewrite map_length.
  - constructor; [exact I|constructor; [|constructor]]; cbn; split; [reflexivity|]; constructor; [lra|constructor].
  - constructor; [exact I|constructor; [|constructor]]. unfold in_limits_by. cbn. split; apply vle_by1; lra.
  - intros H. inversion H as [|? ? _ H']; subst. inversion H' as [|? ? K _]; subst. unfold in_limits in K. cbn in K. destruct K as [_ K]. inversion K; subst. lra.
Qed.
Lemma rig_range_by : in_range_by (1 / 10 / 1) rig [0; 0; 0; 0] /\ ~ in_range_by (1 / 10 / 1) rig [0; 3; 0; 0].
Proof.
  split.
  - intros j t Hj _. do 4 (destruct j as [|j]; [cbn; lra|]). destruct j; discriminate.
  - intros H. specialize (H 1%nat JSlide eq_refl eq_refl). cbn in H. lra.
Qed.
(** Continuous time: the gliding joint meets its conditions exactly, hence up to any tolerance. *)
Lemma glide_near t : 0 < t -> nearly (1 / 10) even_lib (update even_lib one (glide t)) (pull_pd (1 / 2)) (glide_v t).
Proof. intros H. pose proof (glide_small t H) as G. apply (pull_nearly (1 / 2) (1 / 10) (exp (- (1 / 2) * t))). eexists. split; [reflexivity|]. lra. Qed.

(** Resting instead of moving by the best velocity - x / 2. *)
Lemma gap_case : best even_lib (at_ 1) (pull_pd (1 / 2)) [- (1 / 2)] /\ admissible even_lib (at_ 1) (pull_pd (1 / 2)) [0] /\
  total_cost even_lib (at_ 1) (comps_of (pull_pd (1 / 2))) [- (1 / 2)] 0 /\ total_cost even_lib (at_ 1) (comps_of (pull_pd (1 / 2))) [0] (1 / 8) /\
  apart even_lib (at_ 1) (pull_j (1 / 2)) [- (1 / 2)] [0] (1 / 4) /\ apart even_lib (at_ 1) lim1_j [- (1 / 2)] [0] 0 /\ 1 / 4 + 0 = 2 * (1 / 8 - 0).
Proof.
  split; [replace (- (1 / 2)) with (- (1 / 2 * 1)) by lra; apply (pull_best (1 / 2) 1); lra|]. split; [apply (pull_admissible (1 / 2) 1); exists 0; split; [reflexivity|lra]|].
  split; [replace 0 with (1 / 2 * ((- (1 / 2) + 1 / 2 * 1) * (- (1 / 2) + 1 / 2 * 1))) at 1 by lra; apply pull_cost|]. split; [replace (1 / 8) with (1 / 2 * ((0 + 1 / 2 * 1) * (0 + 1 / 2 * 1))) by lra; apply pull_cost|].
  destruct (pull_task_at (1 / 2) 1) as [A1 A2], (pull_bar_at 1) as [B1 B2]. split; [|split; [|lra]].
  - replace (1 / 4) with (sq (vsub (mv [[1]] (mv [[1]] [- (1 / 2)])) (mv [[1]] (mv [[1]] [0]))) + 0 * sq (mv [[1]] (gained (pull_j (1 / 2)) [1 - 0])) * sq (vsub [- (1 / 2)] [0])).
    + eapply apart_eq; [eapply apart_task; [reflexivity|exact A2|exact A1]|]. unfold sq, vsub, mv, dot, vmul, vmap2. cbn. lra.
    + unfold sq, vsub, mv, dot, vmul, vmap2. cbn. lra.
  - eapply apart_eq; [eapply apart_barrier; [reflexivity|exact B2]|]. unfold Rdiv. ring.
Qed.
(** Damping 1 keeps the squared speed below 1/4: it is 4/25. *)
Lemma robust_case : let d := update even_lib one [1] in tidy one damp_prog /\ compiled_by damp_prog 0 damp_pd /\ wf_data one d /\ Forall (accepted even_lib d) (comps_of damp_pd) /\
  Forall (robust 1) (comps_of damp_pd) /\ best even_lib d damp_pd [- (2 / 5)] /\ admissible even_lib d damp_pd (vzero (m_nv one)) /\ Exists (off_target even_lib d) (comps_of damp_pd) /\ 0 < sq [- (2 / 5)].
Proof.
  destruct damp_case as (C1 & C2 & C3 & C4 & _ & _ & C5 & C6 & _). cbv zeta. split; [exact C1|]. split; [exact C2|]. split; [exact C3|]. split; [exact C4|].
  split; [rewrite damp_comps; constructor; [unfold robust; cbn; lra|constructor; [unfold robust; cbn; lra|constructor]]|]. split; [exact C5|]. split; [exact C6|]. split; [|unfold sq, dot, vmul, vmap2; cbn; lra].
  rewrite damp_comps. constructor. destruct (damp_task_at 1) as [A1 _]. do 3 eexists. exists [1 - 0]. eexists. split; [reflexivity|]. split; [exact A1|]. split; [left; unfold gained, dot, vmul, vmap2; cbn; reflexivity|lra].
Qed.
