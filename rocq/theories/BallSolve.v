(** C128, C129: the velocity that the solver returns on robots of ball joints. *)
From Coq Require Import Lia.
From Verif Require Import Base Lin LinFacts Mjx Typing Component Problem SpecComponent SpecJoint SpecHistory SpecMotion SpecConf Rot Conf FrameJac JaxComponents LocalIK Witness SpecTree SpecShape SpecValue SpecDeriv SpecQP SpecSolve SpecDescent SpecFit SpecProblem SpecDrift.
From Verif Require Import CompThms2 BindCases ConfCases ValueCases MotionFacts2 ConfFacts4 FitFacts DerivFacts DerivThms DerivThms2 DerivCases LogCases QPCases DescentFacts AwayCases SolveThms DriftCases DriftSolve CrossThms CrossCases SlipThms SlipCases.
Open Scope R_scope.

Theorem kept_balls L os pi pd So q v0 s v j k i : let m := j_model j in tidy m os -> compiled_by os pi pd -> sound_lib L m -> List.length q = m_nq m -> wf_data m (update L m q) -> Forall (accepted L (update L m q)) (comps_of pd) ->
  exact_at L So m pd (update L m q) -> (exists w, admissible L (update L m q) pd w) -> solve L So m (tvec q) v0 pd = Ok (s, v) ->
  sound_jac (l_jacrev L) -> automatic j -> kinematic L j -> wf_joints m -> smooth L j k q -> In j (comps_of pd) -> jd_model pd = m -> is_barrier j = true -> j_gain_fn j 0 = 0 ->
  (i < k)%nat -> normalised m q -> d_qpos (update L m q) = q -> (forall l, ~ scalar_joint m l) -> (forall l, ~ free_joint m l) ->
  nth i (value_at L j q) 0 = 0 -> exists l, derivative_at_0 (fun t => nth i (value_after L j q v t) 0) l /\ 0 <= l.
Proof.
  intros m Ht Hc HL Hq Hd Hacc HS He E HD Ha Hk Hw Hs Hj Em Bj G0 Hi Hn Hdq N1 N2 Z. eapply kept_turning; eauto.
  - exact (proj1 (returned_best L m os pi pd So q v0 Ht Hc HL Hq Hd Hacc HS s v He E)).
  - split; intros l Hl; exfalso; [exact (N1 l Hl)|exact (N2 l Hl)].
Qed.
Theorem held_balls L os pi pd So q v0 s v j k i : let m := j_model j in tidy m os -> compiled_by os pi pd -> sound_lib L m -> List.length q = m_nq m -> wf_data m (update L m q) -> Forall (accepted L (update L m q)) (comps_of pd) ->
  exact_at L So m pd (update L m q) -> (exists w, admissible L (update L m q) pd w) -> solve L So m (tvec q) v0 pd = Ok (s, v) ->
  sound_jac (l_jacrev L) -> automatic j -> kinematic L j -> wf_joints m -> smooth L j k q -> In j (comps_of pd) -> jd_model pd = m -> is_hard j = true -> j_gain_fn j 0 = 0 ->
  (i < k)%nat -> normalised m q -> d_qpos (update L m q) = q -> (forall l, ~ scalar_joint m l) -> (forall l, ~ free_joint m l) ->
  nth i (value_at L j q) 0 = 0 -> derivative_at_0 (fun t => nth i (value_after L j q v t) 0) 0.
Proof.
  intros m Ht Hc HL Hq Hd Hacc HS He E HD Ha Hk Hw Hs Hj Em Bj G0 Hi Hn Hdq N1 N2 Z. eapply held_turning; eauto.
  - exact (proj1 (returned_best L m os pi pd So q v0 Ht Hc HL Hq Hd Hacc HS s v He E)).
  - split; intros l Hl; exfalso; [exact (N1 l Hl)|exact (N2 l Hl)].
Qed.

(** ** The stick of CrossCases.v and SlipCases.v with a solver *)
Lemma stick_joints : (forall i, ~ scalar_joint (chain [JBall]) i) /\ (forall i, ~ free_joint (chain [JBall]) i).
Proof. split; intros i H; [destruct H as (t & H & K)|]; destruct i as [|[|i]]; try discriminate H. injection H as <-. discriminate K. Qed.
Lemma side_stick_tidy : tidy (chain [JBall]) (side_prog JBall).
Proof.
  split; [apply chain_sound|]. split; [repeat constructor; eapply made_position_barrier; exact side_new|]. split; [repeat (constructor; [first [exact I|reflexivity]|]); constructor|].
  split; [repeat constructor|]. split; [repeat (constructor; [first [exact I|reflexivity|split; [reflexivity|first [exact I|reflexivity]]]|]); constructor|].
  intros k o Hk Hb. do 3 (destruct k as [|k]; [injection Hk as <-; first [contradiction | left; eexists; vm_compute; reflexivity]|]). destruct k; discriminate.
Qed.
Lemma rod_stick_tidy : tidy (chain [JBall]) (rod_prog JBall).
Proof.
  split; [apply chain_sound|]. split; [repeat constructor; eapply made_custom_constraint; exact rod_new|]. split; [repeat (constructor; [first [exact I|reflexivity]|]); constructor|].
  split; [repeat constructor|]. split; [repeat (constructor; [first [exact I|reflexivity|split; [reflexivity|first [exact I|reflexivity]]]|]); constructor|].
  intros k o Hk Hb. do 3 (destruct k as [|k]; [injection Hk as <-; first [contradiction | left; eexists; vm_compute; reflexivity]|]). destruct k; discriminate.
Qed.
Lemma side_stick D : sound_jac D -> shaped_jac D -> let L := joystick D in let m := chain [JBall] in let pd := side_pd JBall in let q := [1; 0; 0; 0] in let d := update L m q in let So := fun _ => mkSol [0; 0; 1] [] [] in
  tidy m (side_prog JBall) /\ compiled_by (side_prog JBall) 0 pd /\ sound_lib L m /\ wf_data m d /\ Forall (accepted L d) (comps_of pd) /\ exact_at L So m pd d /\ (exists w, admissible L d pd w) /\
  solve L So m (tvec q) [] pd = Ok (mkSol [0; 0; 1] [] [], [0; 0; 1]) /\ (forall i, ~ scalar_joint m i) /\ (forall i, ~ free_joint m i).
Proof.
  intros HD HS. cbv zeta. destruct (ball_side D HD) as (Hc & Ha & Hk & _ & Hs & _ & _ & _ & _ & Av & _). destruct (side_ext JBall) as (Em & Ex & _ & Hu). rewrite Em in Av. set (rot := fun q => q_mat (mkQ (nth 0 q 0) (nth 1 q 0) (nth 2 q 0) (nth 3 q 0))).
  assert (Ec : comps_of (side_pd JBall) = [side JBall]) by (vm_compute; reflexivity).
  assert (HL : sound_lib (joystick D) (chain [JBall])) by now apply rig_sound. assert (Hd : wf_data (chain [JBall]) (update (joystick D) (chain [JBall]) [1; 0; 0; 0])) by exact (rig_wf D sphere _ _ JBall [1; 0; 0; 0] eq_refl).
  assert (Hacc : Forall (accepted (joystick D) (update (joystick D) (chain [JBall]) [1; 0; 0; 0])) (comps_of (side_pd JBall))) by (rewrite Ec; constructor; [|constructor]; unfold accepted; rewrite Ex; split; [exact I|]; split; eexists; reflexivity).
  destruct (side_smooth D sphere rot v3_zero JBall [1; 0; 0; 0] [0; 0; 0; 2] eq_refl sphere_slope) as [HM HJ].
  pose proof (auto_jacobian (joystick D) (side JBall) 1 [1; 0; 0; 0] _ HD Ha Hk eq_refl (proj1 Hs) HM HJ eq_refl) as A. rewrite Em in A. unfold to_velocity in A.
  change (d_qpos (update (joystick D) (chain [JBall]) [1; 0; 0; 0])) with [1; 0; 0; 0] in A. change (Nat.eqb (m_nq (chain [JBall])) (m_nv (chain [JBall]))) with false in A. cbv iota in A.
  destruct (jac_dq2v (chain [JBall]) [1; 0; 0; 0]) as [E0|] eqn:EE; [|vm_compute in EE; discriminate]. vm_compute in EE. apply Ok_inj in EE. subst E0. cbn [bind] in A. change (is_matb _ _ _) with true in A. cbv iota in A.
  match type of A with _ = Ok ?J => set (J0 := J) in A end. assert (NZ : frob2 J0 <> 0) by (unfold J0, frob2; cbn; lra).
  assert (T : forall u, total_cost (joystick D) (update (joystick D) (chain [JBall]) [1; 0; 0; 0]) (comps_of (side_pd JBall)) u 0).
  { intros u. rewrite Ec. eexists. split; [constructor; [exact (cost_barrier _ _ (side JBall) u 0 _ _ Ex A NZ)|constructor]|]. unfold vsum; cbn. unfold Rdiv. ring. }
  assert (B : best (joystick D) (update (joystick D) (chain [JBall]) [1; 0; 0; 0]) (side_pd JBall) [0; 0; 1]) by (split; [exact Av|]; exists 0; split; [apply T|]; intros u _; exists 0; split; [apply T|lra]).
  assert (X : exact_at (joystick D) (fun _ => mkSol [0; 0; 1] [] []) (chain [JBall]) (side_pd JBall) (update (joystick D) (chain [JBall]) [1; 0; 0; 0])) by exact (constant_exact _ _ _ 0 _ _ _ side_stick_tidy Hc HL Hd Hacc B).
  split; [exact side_stick_tidy|]. split; [exact Hc|]. split; [exact HL|]. split; [exact Hd|]. split; [exact Hacc|]. split; [exact X|]. split; [eexists; exact Av|]. split; [|exact stick_joints].
  destruct (program_best (joystick D) (chain [JBall]) (side_prog JBall) 0 (side_pd JBall) side_stick_tidy Hc HL (fun _ => mkSol [0; 0; 1] [] []) (tvec [1; 0; 0; 0]) [] eq_refl Hd Hacc X) as [(s & v & E & _)|(_ & j & J & Hj & _ & EJ & Z)]; [eexists; exact Av| |exfalso; rewrite Ec in Hj; destruct Hj as [<-|[]]; cbn [tvec t_data] in EJ; rewrite A in EJ; apply Ok_inj in EJ; subst J; contradiction].
  rewrite E. f_equal. change (solve_from_data (joystick D) (fun _ => mkSol [0; 0; 1] [] []) (chain [JBall]) [] (side_pd JBall) (update (joystick D) (chain [JBall]) [1; 0; 0; 0]) = Ok (s, v)) in E.
  unfold solve_from_data in E. destruct (assemble (joystick D) (chain [JBall]) (side_pd JBall) (update (joystick D) (chain [JBall]) [1; 0; 0; 0])) as [Q|e]; [|discriminate E]. cbn [bind sol_primal] in E. injection E as <- <-. reflexivity.
Qed.
Lemma rod_stick D : sound_jac D -> shaped_jac D -> let L := joystick D in let m := chain [JBall] in let pd := rod_pd JBall in let q := [1; 0; 0; 0] in let d := update L m q in let So := fun _ => mkSol [0; 0; 1] [] [] in
  tidy m (rod_prog JBall) /\ compiled_by (rod_prog JBall) 0 pd /\ sound_lib L m /\ wf_data m d /\ Forall (accepted L d) (comps_of pd) /\ exact_at L So m pd d /\ (exists w, admissible L d pd w) /\
  solve L So m (tvec q) [] pd = Ok (mkSol [0; 0; 1] [] [], [0; 0; 1]) /\ (forall i, ~ scalar_joint m i) /\ (forall i, ~ free_joint m i).
Proof.
  intros HD HS. cbv zeta. destruct (ball_rod D HD) as (Hc & _ & _ & _ & _ & _ & _ & _ & _ & Av & _). destruct (rod_ext JBall) as (Em & _ & Ed & W & Ex). rewrite Em in Av.
  assert (Ec : comps_of (rod_pd JBall) = [rod JBall]) by (vm_compute; reflexivity).
  assert (HL : sound_lib (joystick D) (chain [JBall])) by now apply rig_sound. assert (Hd : wf_data (chain [JBall]) (update (joystick D) (chain [JBall]) [1; 0; 0; 0])) by exact (rig_wf D sphere _ _ JBall [1; 0; 0; 0] eq_refl).
  assert (Hacc : Forall (accepted (joystick D) (update (joystick D) (chain [JBall]) [1; 0; 0; 0])) (comps_of (rod_pd JBall))) by (rewrite Ec; constructor; [|constructor]; unfold accepted; rewrite Ex; intros d _; exact Ed).
  assert (T : forall u, total_cost (joystick D) (update (joystick D) (chain [JBall]) [1; 0; 0; 0]) (comps_of (rod_pd JBall)) u 0).
  { intros u. rewrite Ec. eexists. split; [constructor; [exact (cost_hard _ _ (rod JBall) u _ _ _ Ex)|constructor]|]. unfold vsum; cbn. ring. }
  assert (B : best (joystick D) (update (joystick D) (chain [JBall]) [1; 0; 0; 0]) (rod_pd JBall) [0; 0; 1]) by (split; [exact Av|]; exists 0; split; [apply T|]; intros u _; exists 0; split; [apply T|lra]).
  assert (X : exact_at (joystick D) (fun _ => mkSol [0; 0; 1] [] []) (chain [JBall]) (rod_pd JBall) (update (joystick D) (chain [JBall]) [1; 0; 0; 0])) by exact (constant_exact _ _ _ 0 _ _ _ rod_stick_tidy Hc HL Hd Hacc B).
  split; [exact rod_stick_tidy|]. split; [exact Hc|]. split; [exact HL|]. split; [exact Hd|]. split; [exact Hacc|]. split; [exact X|]. split; [eexists; exact Av|]. split; [|exact stick_joints].
  destruct (lone_returns (joystick D) (chain [JBall]) (rod_prog JBall) 0 (rod_pd JBall) (fun _ => mkSol [0; 0; 1] [] []) [1; 0; 0; 0] [] rod_stick_tidy Hc HL eq_refl Hd Hacc X _ Ec) as (s & v & E & _); [unfold is_barrier; now rewrite Ex|eexists; exact Av|].
  rewrite E. f_equal. change (solve_from_data (joystick D) (fun _ => mkSol [0; 0; 1] [] []) (chain [JBall]) [] (rod_pd JBall) (update (joystick D) (chain [JBall]) [1; 0; 0; 0]) = Ok (s, v)) in E.
  unfold solve_from_data in E. destruct (assemble (joystick D) (chain [JBall]) (rod_pd JBall) (update (joystick D) (chain [JBall]) [1; 0; 0; 0])) as [Q|e]; [|discriminate E]. cbn [bind sol_primal] in E. injection E as <- <-. reflexivity.
Qed.
