(** One hinge: damped, sped up, restricted further, with two goals, with a soft constraint. *)
From Verif Require Import Base Lin LinFacts Mjx Typing Component Problem SpecComponent SpecJoint SpecHistory SpecProblem SpecShape SpecFit SpecValue Witness CompThms2 Rot SpecConf Conf FrameJac Collide JaxComponents LocalIK SpecQP SpecMotion SpecLoop SpecDeriv.
From Verif Require Import MotionFacts MotionFacts2 LoopFacts QPFacts QPThms QPThms2 QPThms3 QPThms4 QPCases MotionCases ConfCases ValueCases FitFacts FitFacts3 FitCases SpecSolve SolveFacts SolveThms ScaleFacts SpecDescent DescentFacts DescentFacts2 DescentThms DescentThms2 DescentCases SpecGoals GoalThms GoalThms2 GoalCases SpecTrade TradeFacts TradeThms.
Open Scope R_scope.

Lemma legal_of m os : tidy m os -> Forall legal os. Proof. intros H. apply H. Qed.
Lemma wf_of m os : tidy m os -> Forall wf_wop os. Proof. intros H. apply H. Qed.
(** Damping 0 and damping 1. *)
Lemma damping_case : let d := update even_lib one [1] in let j := pull_j (1 / 2) in Forall legal (pull_prog (1 / 2)) /\ compiled_by (pull_prog (1 / 2)) 0 (pull_pd (1 / 2)) /\ registered (pull_prog (1 / 2)) 0 "pull" 0 /\ In ("pull"%string, j) (jd_comps (pull_pd (1 / 2))) /\
  damping j < 1 /\ reacts even_lib d j /\ compiled_by (pull_prog (1 / 2) ++ [WCop 0 (OpAssign (set_damping 1))]) 0 damp_pd /\ Forall nonneg_weights (comps_of (pull_pd (1 / 2))) /\
  best even_lib d (pull_pd (1 / 2)) [- (1 / 2)] /\ best even_lib d damp_pd [- (2 / 5)] /\ sq [- (2 / 5)] < sq [- (1 / 2)].
Proof.
  cbv zeta. split; [eapply legal_of; apply pull_tidy|]. split; [apply pull_compiled|]. split.
  { eexists. split; [vm_compute; reflexivity|]. cbn. split; [now left|]. intros n [H|[H|[]]]; [now injection H as <-|discriminate]. }
  split; [now left|]. split; [cbn; lra|]. split; [exists [1 - 0], (1 * 1 * (1 / 2 * (1 - 0)) + 0); split; [reflexivity|]; split; [left; unfold dot, vmul, vmap2, gained; cbn; reflexivity|lra]|].
  split; [vm_compute; reflexivity|]. split; [rewrite pull_comps; repeat constructor; unfold nonneg_weights; cbn; lra|].
  split; [replace (- (1 / 2)) with (- (1 / 2 * 1)) by ring; apply (pull_best (1 / 2) 1); lra|]. split; [apply damp_case|]. unfold sq, dot, vmul, vmap2. cbn. lra.
Qed.
(** Twice the speed. *)
Lemma speed_case : let d := update even_lib one [1 / 3] in Forall legal (pull_prog (1 / 2)) /\ Forall wf_wop (pull_prog (1 / 2)) /\ compiled_by (pull_prog (1 / 2)) 0 (pull_pd (1 / 2)) /\ Forall undamped (comps_of (pull_pd (1 / 2))) /\ lists_all (state (pull_prog (1 / 2))) 0 [0%nat; 1%nat] /\
  best even_lib d (pull_pd (1 / 2)) [- (1 / 6)].
Proof.
  cbv zeta. split; [eapply legal_of; apply pull_tidy|]. split; [eapply wf_of; apply pull_tidy|]. split; [apply pull_compiled|]. split; [rewrite pull_comps; repeat constructor|]. split.
  { split; [repeat constructor; cbn; intuition lia|]. intros ci. split.
    - intros [<-|[<-|[]]]; (eexists; eexists; split; [vm_compute; reflexivity|]); cbn; auto.
    - intros (p & n & P & H). vm_compute in P. injection P as <-. cbn in H. destruct H as [H|[H|[]]]; injection H as _ <-; cbn; auto. }
  replace (- (1 / 6)) with (- (1 / 2 * (1 / 3))) by field. apply (pull_best (1 / 2) (1 / 3)); lra.
Qed.
(** A further joint barrier, no lower than [lo]. *)
Section Floor.
Context (lo : R).
Definition floor_bar : comp := mkC (mkA "floor" None (tscalar 1) (fun x => x) (-1) None []
  (XBarrier 0 (BJoint (mkJB None (Some (tvec [lo])) None None)))) true None.
Lemma floor_made : constructed floor_bar.
Proof. eapply made_joint_barrier with (name := "floor"%string) (gain := tscalar 1) (gf := None) (sdg := 0) (lo := Some (tvec [lo])) (hi := None) (mk := None). reflexivity. Qed.
Definition floor_j : jaxc := Eval vm_compute in get_j (fst (jax_component (history [OpModel one] floor_bar))) dummy_j.
Definition floor_pd : jdata := extended (pull_pd (1 / 2)) "floor" floor_j.
Definition floor_prog : list wop := pull_prog (1 / 2) ++ [WNewComp floor_bar].
Lemma floor_compiled : Forall legal floor_prog /\ compiled_by floor_prog 0 (pull_pd (1 / 2)) /\ fst (step (WAdd 0 2) (state floor_prog)) = Ok ODone /\ compiled_by (floor_prog ++ [WAdd 0 2]) 0 floor_pd /\
  forall p n, nth_error (w_probs (state floor_prog)) 0 = Some p -> ~ In (n, 2%nat) (p_comps p).
Proof.
  split; [apply Forall_app; split; [eapply legal_of; apply pull_tidy|constructor; [exact floor_made|constructor]]|]. split; [vm_compute; reflexivity|]. split; [vm_compute; reflexivity|]. split; [vm_compute; reflexivity|].
  intros p n P H. vm_compute in P. injection P as <-. cbn in H. destruct H as [H|[H|[]]]; discriminate.
Qed.
Lemma floor_at x : call even_lib floor_j (at_ x) = Ok [x - lo; 1 - x] /\ jacobian even_lib floor_j (at_ x) = Ok [[1]; [-1]].
Proof. split; [vm_compute; reflexivity|]. transitivity (@Ok mat ([[1]] ++ mneg [[1]])); [vm_compute; reflexivity|]. unfold mneg, vneg. cbn. repeat f_equal; lra. Qed.
Lemma floor_restricts : restricts floor_j. Proof. reflexivity. Qed.
Lemma floor_obeys x u : obeys even_lib (at_ x) [u] floor_j <-> - (x - lo) <= u <= 1 - x.
Proof.
  destruct (floor_at x) as [B1 B2]. split.
  - intros [C1 _]. specialize (C1 eq_refl _ _ B2 B1). unfold gained, vle, mv, dot, vneg, vmul, vmap2 in C1. cbn in C1. inversion C1 as [|? ? ? ? K1 K2]; subst. inversion K2; subst. lra.
  - intros H. split; intros K; [|discriminate K]. intros J e EJ Ee. rewrite B2 in EJ. injection EJ as <-. rewrite B1 in Ee. injection Ee as <-. unfold gained, vle, mv, dot, vneg, vmul, vmap2. cbn. repeat (constructor; [lra|]). constructor.
Qed.
Lemma floor_inside x u : - (x - lo) < u < 1 - x -> strictly_inside even_lib (at_ x) [u] floor_j.
Proof.
  intros H. destruct (floor_at x) as [B1 B2]. split; [reflexivity|]. intros J e EJ Ee. rewrite B2 in EJ. injection EJ as <-. rewrite B1 in Ee. injection Ee as <-. unfold gained, mv, dot, vneg, vmul, vmap2. cbn. repeat (constructor; [lra|]). constructor.
Qed.
Lemma floor_cost x v : cost_of even_lib (at_ x) floor_j v 0.
Proof.
  destruct (floor_at x) as [B1 B2]. replace 0 with (1 / 2 * (0 / frob2 [[1]; [-1]]) * sq v) at 1 by (unfold Rdiv; ring). eapply cost_barrier; [reflexivity|exact B2|]. unfold frob2, dot, vmul, vmap2. cbn. lra.
Qed.
Lemma floor_best x : -4 <= - (x - lo) <= 4 -> - (x + 1) <= - (x - lo) <= 1 - x -> - (1 / 2 * x) <= - (x - lo) -> best even_lib (at_ x) floor_pd [- (x - lo)].
Proof.
  intros H1 H2 H3. split; [apply extended_admissible; split; [apply pull_admissible; eexists; split; [reflexivity|lra]|apply floor_obeys; lra]|].
  assert (T : forall u, total_cost even_lib (at_ x) (comps_of floor_pd) [u] (1 / 2 * ((u + 1 / 2 * x) * (u + 1 / 2 * x)))). { intros u. unfold floor_pd. rewrite extended_comps. rewrite <- (Rplus_0_r (1 / 2 * _)). apply total_app; [apply pull_cost|apply total_one, floor_cost]. }
  eexists. split; [apply T|]. intros w Hw. apply extended_admissible in Hw. destruct Hw as [Hw Ho]. apply pull_admissible in Hw. destruct Hw as (u & -> & _). apply floor_obeys in Ho. eexists. split; [apply T|]. nra.
Qed.
End Floor.
Lemma tight_case : let d := update even_lib one [1 / 3] in restricts (floor_j (1 / 4)) /\ best even_lib d (pull_pd (1 / 2)) [- (1 / 2 * (1 / 3))] /\ best even_lib d (floor_pd (1 / 4)) [- (1 / 3 - 1 / 4)] /\ ~ obeys even_lib d [- (1 / 2 * (1 / 3))] (floor_j (1 / 4)).
Proof.
  cbv zeta. split; [reflexivity|]. split; [apply (pull_best (1 / 2) (1 / 3)); lra|]. split; [apply (floor_best (1 / 4) (1 / 3)); lra|]. intros H. apply (floor_obeys (1 / 4) (1 / 3)) in H. lra.
Qed.
Lemma idle_case : let d := update even_lib one [1 / 3] in let j := floor_j (- (1 / 2)) in restricts j /\ (exists u z, cost_of even_lib d j u z) /\ best even_lib d (pull_pd (1 / 2)) [- (1 / 2 * (1 / 3))] /\ obeys even_lib d [- (1 / 2 * (1 / 3))] j /\
  Forall nonneg_weights (comps_of (pull_pd (1 / 2))) /\ best even_lib d (floor_pd (- (1 / 2))) [- (1 / 2 * (1 / 3))] /\ strictly_inside even_lib d [- (1 / 2 * (1 / 3))] j.
Proof.
  cbv zeta. assert (B : best even_lib (at_ (1 / 3)) (pull_pd (1 / 2)) [- (1 / 2 * (1 / 3))]) by (apply (pull_best (1 / 2) (1 / 3)); lra). assert (O : obeys even_lib (at_ (1 / 3)) [- (1 / 2 * (1 / 3))] (floor_j (- (1 / 2)))) by (apply floor_obeys; lra).
  assert (C : exists u z, cost_of even_lib (at_ (1 / 3)) (floor_j (- (1 / 2))) u z) by (exists [], 0; apply floor_cost).
  split; [reflexivity|]. split; [exact C|]. split; [exact B|]. split; [exact O|]. split; [rewrite pull_comps; repeat constructor; unfold nonneg_weights; cbn; lra|].
  split; [apply restriction_met; [reflexivity|exact C|exact B|exact O]|]. apply (floor_inside (- (1 / 2)) (1 / 3)). lra.
Qed.
(** Two goals that exclude each other: angle 0 and angle 1; the cost of the second is [c]. *)
Section Rivals.
Context (c : R).
Definition rival : comp := mkC (mkA "rival" None (tscalar (1 / 2)) (fun x => x) (-1) None []
  (XTask (tscalar c) 0 (TJoint (mkJT None None None)))) true None.
Lemma rival_made : constructed rival.
Proof. eapply made_joint_task with (name := "rival"%string) (cost := tscalar c) (gain := tscalar (1 / 2)) (gf := None) (lm := 0) (mk := None). unfold new_joint_task, init_task. cbn. rewrite not_neg0. reflexivity. Qed.
Definition rival_prog : list wop :=
  [WNewProblem one (tscalar (-4)) (tscalar 4); WNewComp (pull_task (1 / 2)); WNewComp rival; WAdd 0 0; WAdd 0 1; WCop 0 (OpTargetQ (tvec [0])); WCop 1 (OpTargetQ (tvec [1]))].
Definition rival_pd : jdata := Eval vm_compute in result (fst (step (WCompile 0) (run rival_prog empty_world))).
Definition rival_j : jaxc := Eval vm_compute in get_j (fst (jax_component (history [OpModel one; OpTargetQ (tvec [1])] rival))) dummy_j.
Lemma rival_comps : jd_comps rival_pd = [("pull"%string, pull_j (1 / 2)); ("rival"%string, rival_j)]. Proof. reflexivity. Qed.
Lemma rival_compiled : compiled_by rival_prog 0 rival_pd. Proof. vm_compute. reflexivity. Qed.
Lemma rival_tidy : tidy one rival_prog.
Proof.
  split; [apply chain_sound|]. split; [repeat constructor; [apply pull_made|exact rival_made]|]. split; [repeat (constructor; [first [exact I|reflexivity]|]); constructor|].
  split; [repeat constructor|]. split; [repeat (constructor; [first [exact I|reflexivity|split; [reflexivity|first [exact I|reflexivity]]]|]); constructor|].
  intros k o Hk Hb. do 7 (destruct k as [|k]; [injection Hk as <-; first [contradiction | left; eexists; vm_compute; reflexivity]|]). destruct k; discriminate.
Qed.
Lemma rival_at x : call even_lib rival_j (at_ x) = Ok [x - 1] /\ jacobian even_lib rival_j (at_ x) = Ok [[1]].
Proof. split; [reflexivity|vm_compute; reflexivity]. Qed.
Lemma rival_cost x u : cost_of even_lib (at_ x) rival_j [u] (1 / 2 * (c * (u + 1 / 2 * (x - 1)) * (c * (u + 1 / 2 * (x - 1))))).
Proof.
  destruct (rival_at x) as [A1 A2]. match goal with |- cost_of _ _ _ _ ?z => assert (E : z = 1 / 2 * sq (mv [[c * 1]] (vadd (mv [[1]] [u]) (gained rival_j [x - 1]))) + 1 / 2 * (0 * sq (mv [[c * 1]] (gained rival_j [x - 1]))) * sq [u]) end.
  { unfold sq, gained, mv, vadd, dot, vmul, vmap2. cbn. field. } rewrite E. eapply cost_task; [reflexivity|exact A2|exact A1].
Qed.
Lemma pull_own x u : total_cost even_lib (at_ x) [pull_j (1 / 2)] [u] (1 / 2 * ((u + 1 / 2 * x) * (u + 1 / 2 * x))).
Proof.
  apply total_one. destruct (pull_task_at (1 / 2) x) as [A1 A2]. match goal with |- cost_of _ _ _ _ ?z => assert (E : z = 1 / 2 * sq (mv [[1 * 1]] (vadd (mv [[1]] [u]) (gained (pull_j (1 / 2)) [x - 0]))) + 1 / 2 * (0 * sq (mv [[1 * 1]] (gained (pull_j (1 / 2)) [x - 0]))) * sq [u]) end.
  { unfold sq, gained, mv, vadd, dot, vmul, vmap2. cbn. field. } rewrite E. eapply cost_task; [reflexivity|exact A2|exact A1].
Qed.
Lemma rival_admissible x v : admissible even_lib (at_ x) rival_pd v <-> exists u, v = [u] /\ -4 <= u <= 4.
Proof.
  unfold admissible. split.
  - intros (Lv & A & B & _). destruct v as [|u [|]]; try discriminate. exists u. split; [reflexivity|]. cbn in A, B. apply vle1 in A. apply vle1 in B. lra.
  - intros (u & -> & H1). split; [reflexivity|]. cbn [rival_pd jd_vmin jd_vmax]. split; [cbn; apply vle1; lra|]. split; [cbn; apply vle1; lra|]. repeat constructor; intros K; discriminate K.
Qed.
Lemma rival_total x u : total_cost even_lib (at_ x) (comps_of rival_pd) [u] (1 / 2 * ((u + 1 / 2 * x) * (u + 1 / 2 * x)) + 1 / 2 * (c * (u + 1 / 2 * (x - 1)) * (c * (u + 1 / 2 * (x - 1))))).
Proof. unfold comps_of. rewrite rival_comps. cbn [map snd]. change [pull_j (1 / 2); rival_j] with ([pull_j (1 / 2)] ++ [rival_j]). apply total_app; [apply pull_own|apply total_one, rival_cost]. Qed.
(** At angle 0 the best velocity is a compromise. *)
Lemma rival_best : best even_lib (at_ 0) rival_pd [c * c / (2 * (1 + c * c))].
Proof.
  assert (P : 0 <= c * c) by apply Rle_0_sqr. assert (Q : 0 < 1 + c * c) by lra. set (z := c * c / (2 * (1 + c * c))). assert (Z : z * (2 * (1 + c * c)) = c * c) by (unfold z; field; lra). assert (Z1 : 0 <= z <= 1 / 2) by nra.
  split; [apply rival_admissible; exists z; split; [reflexivity|lra]|]. eexists. split; [apply rival_total|]. intros w Hw. apply rival_admissible in Hw. destruct Hw as (u & -> & _). eexists. split; [apply rival_total|].
  pose proof (Rle_0_sqr (u - z)) as K. unfold Rsqr in K.
  assert (E : forall y, 1 / 2 * ((y + 1 / 2 * 0) * (y + 1 / 2 * 0)) + 1 / 2 * (c * (y + 1 / 2 * (0 - 1)) * (c * (y + 1 / 2 * (0 - 1)))) = 1 / 2 * (1 + c * c) * ((y - z) * (y - z)) + 1 / 2 * (c * c / 4 - z * z * (1 + c * c))).
  { intros y. replace (c * c / 4) with (z * (2 * (1 + c * c)) / 4) at 1 by (rewrite Z; reflexivity). assert (c * c * y = z * (2 * (1 + c * c)) * y) by (rewrite Z; ring). nra. }
  rewrite !E. assert (0 <= 1 / 2 * (1 + c * c) * ((u - z) * (u - z))) by (apply Rmult_le_pos; lra). replace (z - z) with 0 by ring. lra.
Qed.
End Rivals.
Lemma rival_case : let d := update even_lib one [0] in let j := rival_j 1 in Forall legal (rival_prog 1) /\ compiled_by (rival_prog 1) 0 (rival_pd 1) /\ registered (rival_prog 1) 0 "rival" 1 /\ In ("rival"%string, j) (jd_comps (rival_pd 1)) /\ (exists W lm k, j_ext j = JTask W lm k) /\
  (exists pd', compiled_by (rival_prog 1 ++ [WCop 1 (OpCost (scaled_array 2 (task_cost (state (rival_prog 1)) 1)))]) 0 pd' /\ best even_lib d pd' [2 / 5]) /\ best even_lib d (rival_pd 1) [1 / 4] /\
  cost_of even_lib d j [1 / 4] (1 / 32) /\ cost_of even_lib d j [2 / 5] (1 / 200).
Proof.
  cbv zeta. split; [eapply legal_of; apply rival_tidy|]. split; [apply rival_compiled|]. split.
  { eexists. split; [vm_compute; reflexivity|]. cbn. split; [now right; left|]. intros n [H|[H|[]]]; [discriminate|now injection H as <-]. }
  split; [right; now left|]. split; [do 3 eexists; reflexivity|]. split.
  { eexists. split; [vm_compute; reflexivity|]. match goal with |- best _ _ ?p _ => assert (E : p = rival_pd (2 * 1)) by reflexivity; rewrite E end. replace (2 / 5) with (2 * 1 * (2 * 1) / (2 * (1 + 2 * 1 * (2 * 1)))) by field. apply rival_best. }
  split; [replace (1 / 4) with (1 * 1 / (2 * (1 + 1 * 1))) by field; apply rival_best|]. split.
  - replace (1 / 32) with (1 / 2 * (1 * (1 / 4 + 1 / 2 * (0 - 1)) * (1 * (1 / 4 + 1 / 2 * (0 - 1))))) by field. apply (rival_cost 1 0).
  - replace (1 / 200) with (1 / 2 * (1 * (2 / 5 + 1 / 2 * (0 - 1)) * (1 * (2 / 5 + 1 / 2 * (0 - 1))))) by field. apply (rival_cost 1 0).
Qed.
(** The velocity that meets the second goal exactly. *)
Lemma penalty_case s : s <> 0 -> let d := update even_lib one [0] in let l1 := [("pull"%string, pull_j (1 / 2))] in jd_comps (rival_pd 1) = l1 ++ ("rival"%string, rival_j 1) :: [] /\ Forall nonneg_weights (map snd (l1 ++ [])) /\
  (exists v, best even_lib d (with_components (rival_pd 1) (l1 ++ [("rival"%string, rescaled s (rival_j 1))])) v) /\ admissible even_lib d (rival_pd 1) [1 / 2] /\ cost_of even_lib d (rival_j 1) [1 / 2] 0 /\ total_cost even_lib d (map snd (l1 ++ [])) [1 / 2] (1 / 8).
Proof.
  intros Hs. cbv zeta. split; [reflexivity|]. split; [repeat constructor; unfold nonneg_weights; cbn; lra|]. split.
  { eexists. assert (E : with_components (rival_pd 1) [("pull"%string, pull_j (1 / 2)); ("rival"%string, rescaled s (rival_j 1))] = rival_pd (s * 1)).
    { assert (R : rescaled s (rival_j 1) = rival_j (s * 1)). { unfold rescaled, rival_j. cbn [j_dim j_model j_gain j_gain_fn j_mask_idxs j_ext]. f_equal. f_equal. unfold mscale, vscale. cbn [map]. f_equal. f_equal. ring. } rewrite R. reflexivity. }
    cbn [app]. rewrite E. apply rival_best. }
  split; [apply (rival_admissible 1 0); eexists; split; [reflexivity|lra]|]. split.
  - assert (E : 1 / 2 * (1 * (1 / 2 + 1 / 2 * (0 - 1)) * (1 * (1 / 2 + 1 / 2 * (0 - 1)))) = 0) by field. pose proof (rival_cost 1 0 (1 / 2)) as K. rewrite E in K. exact K.
  - replace (1 / 8) with (1 / 2 * ((1 / 2 + 1 / 2 * 0) * (1 / 2 + 1 / 2 * 0))) by field. apply (pull_own 0).
Qed.

(** The angle of the hinge as a user function: a soft constraint or a task. *)
Definition angle (d : mjdata) : list R := d_qpos d.
Definition base_prog : list wop := [WNewProblem one (tscalar (-4)) (tscalar 4); WNewComp (pull_task (1 / 2)); WAdd 0 0; WCop 0 (OpTargetQ (tvec [1]))].
Lemma soft_case : exists ct cc pd pd1 pd2, Forall legal base_prog /\ compiled_by base_prog 0 pd /\ new_custom_task "angle" (tscalar 3) (tscalar 1) None 0 None 1 angle = Ok ct /\ new_custom_constraint "angle" (tscalar 1) None false (Some (tscalar 3)) 1 angle = Ok cc /\
  fst (step (WAdd 0 1) (state (base_prog ++ [WNewComp ct]))) = Ok ODone /\ fst (step (WAdd 0 1) (state (base_prog ++ [WNewComp cc]))) = Ok ODone /\
  compiled_by (base_prog ++ [WNewComp ct; WAdd 0 1]) 0 pd1 /\ compiled_by (base_prog ++ [WNewComp cc; WAdd 0 1]) 0 pd2 /\ List.length (w_comps (state base_prog)) = 1%nat.
Proof.
  eexists. eexists. eexists. eexists. eexists. split; [repeat constructor; apply pull_made|]. split; [vm_compute; reflexivity|].
  split; [unfold new_custom_task, init_task; cbn; rewrite not_neg0; reflexivity|]. split; [reflexivity|]. repeat (split; [vm_compute; reflexivity|]). reflexivity.
Qed.
(** The second goal with cost factor 5. *)
Lemma twice_case : let d := update even_lib one [0] in let pd := with_components (rival_pd 1) [("pull"%string, pull_j (1 / 2))] in 3 <> 0 /\ 4 <> 0 /\ 5 * 5 = 3 * 3 + 4 * 4 /\
  best even_lib d (extended pd "rival" (rescaled 5 (rival_j 1))) [25 / 52].
Proof.
  cbv zeta. split; [lra|]. split; [lra|]. split; [lra|].
  assert (R : rescaled 5 (rival_j 1) = rival_j (5 * 1)). { unfold rescaled, rival_j. cbn [j_dim j_model j_gain j_gain_fn j_mask_idxs j_ext]. f_equal. f_equal. unfold mscale, vscale. cbn [map]. f_equal. f_equal. ring. }
  rewrite R. change (extended _ _ _) with (rival_pd (5 * 1)). replace (25 / 52) with (5 * 1 * (5 * 1) / (2 * (1 + 5 * 1 * (5 * 1)))) by field. apply rival_best.
Qed.
