(** C126 and C127 for the velocity that the solver returns. *)
From Coq Require Import Lia.
From Verif Require Import Base Lin LinFacts Mjx Typing Component Problem SpecComponent SpecJoint SpecHistory SpecMotion SpecConf Rot Conf FrameJac JaxComponents LocalIK Witness SpecTree SpecShape SpecValue SpecDeriv SpecQP SpecSolve SpecDescent SpecFit SpecProblem SpecDrift.
From Verif Require Import CompThms2 ConfCases ValueCases QPThms SolveThms DerivThms2 DerivCases LogCases AwayThms AwayCases DriftThms DriftCases.
Open Scope R_scope.

Lemma true_jac_shaped : shaped_jac true_jac.
Proof.
  intros f x k H. destruct (H x eq_refl) as (y & E & <-). unfold true_jac. rewrite E. eexists. split; [reflexivity|]. split; [now rewrite map_length, seq_length|].
  apply Forall_forall. intros r Hr. apply in_map_iff in Hr. destruct Hr as (i & <- & _). now rewrite map_length, seq_length.
Qed.
Section Solver.
Context (L : lib) (m : mjmodel) (os : list wop) (pi : nat) (pd : jdata) (So : qpsolver) (q v0 : vec).
Notation d := (update L m q).
Context (Ht : tidy m os) (Hc : compiled_by os pi pd) (HL : sound_lib L m) (Hq : List.length q = m_nq m) (Hd : wf_data m d) (Ha : Forall (accepted L d) (comps_of pd)) (HS : exact_at L So m pd d).
Lemma returned_best s v : (exists w, admissible L d pd w) -> solve L So m (tvec q) v0 pd = Ok (s, v) -> best L d pd v.
Proof using All.
  intros He E. destruct (program_best L m os pi pd Ht Hc HL So (tvec q) v0) as [(s' & v' & E' & B)|(E' & _)]; auto; [cbn; now rewrite Hq| |congruence].
  rewrite E in E'. injection E' as <- <-. exact B.
Qed.
Lemma lone_returns j : comps_of pd = [j] -> is_barrier j = false -> (exists w, admissible L d pd w) -> exists s v, solve L So m (tvec q) v0 pd = Ok (s, v) /\ best L d pd v.
Proof using All.
  intros Ec Hb He. destruct (program_best L m os pi pd Ht Hc HL So (tvec q) v0) as [X|(_ & j' & J & Hj & B & _)]; auto; [cbn; now rewrite Hq|].
  rewrite Ec in Hj. destruct Hj as [<-|[]]. congruence.
Qed.
End Solver.

Lemma lone_task_barrier j : seeks j = true -> is_barrier j = false.
Proof. unfold seeks, is_barrier. now destruct (j_ext j). Qed.
(** The velocity exists and does not move away. *)
Theorem solver_scalar L os pi pd So q v0 j k g : let m := j_model j in tidy m os -> compiled_by os pi pd -> sound_lib L m -> List.length q = m_nq m -> wf_data m (update L m q) -> Forall (accepted L (update L m q)) (comps_of pd) ->
  exact_at L So m pd (update L m q) -> sound_jac (l_jacrev L) -> automatic j -> kinematic L j -> wf_joints m -> smooth L j k q ->
  comps_of pd = [j] -> jd_model pd = m -> seeks j = true -> uniform g j -> nonneg_weights j -> List.length (j_gain j) = k ->
  admissible L (update L m q) pd (vzero (m_nv m)) -> m_nq m = m_nv m -> keeps_scalars L m ->
  exists s v, solve L So m (tvec q) v0 pd = Ok (s, v) /\ exists l, derivative_at_0 (fun t => g / 2 * sq (mv (weight_of j) (value_after L j q v t))) l /\ l <= 0.
Proof.
  intros m Ht Hc HL Hq Hd Hacc HS HD Ha Hk Hw Hs Ec Em Se Hu Hn Hg H0 En Ks.
  destruct (lone_returns L m os pi pd So q v0 Ht Hc HL Hq Hd Hacc HS j Ec (lone_task_barrier j Se)) as (s & v & E & B); [eexists; exact H0|].
  exists s, v. split; [exact E|]. eapply lone_scalar; eauto.
Qed.
Theorem solver_frame L mk on ty os pi pd So q v0 s v j p g : let m := j_model j in tidy m os -> compiled_by os pi pd -> sound_lib L m -> List.length q = m_nq m -> Forall (accepted L (update L m q)) (comps_of pd) -> exact_at L So m pd (update L m q) ->
  solve L So m (tvec q) v0 pd = Ok (s, v) ->
  sound_jac (l_jacrev L) -> 0 < l_eps L -> frame_task mk on ty j -> has_pose ty -> target_frame_is j q_one p -> mask_within 6 mk ->
  comps_of pd = [j] -> jd_model pd = m -> uniform g j -> nonneg_weights j -> normalised m q -> (forall y, List.length y = m_nq m -> wf_data m (update L m y)) ->
  admissible L (update L m q) pd (vzero (m_nv m)) ->
  exists i, has_object m ty on (Z.of_nat i) /\ forall x J0, (forall y, List.length y = m_nq m -> exists M x, pose_is (update L m y) ty i M x) ->
    pose_is (update L m q) ty i m3_id x -> get_frame_jacobian_world_aligned m (update L m q) (Z.of_nat i) ty = Ok J0 ->
    moves_with (data_after L m q v) ty i (linear_velocity J0 v) (angular_velocity J0 v) ->
    cross3 (v3_list x) (angular_velocity J0 v) = [0; 0; 0] ->
    exists l, derivative_at_0 (fun t => g / 2 * sq (mv (weight_of j) (value_after L j q v t))) l /\ l <= 0.
Proof.
  intros m Ht Hc HL Hq Hacc HS E HD He Hf Hp Hg Hm Ec Em Hu Hn Hnq Hd H0.
  apply (frame_descends L mk on ty pd j q v p g); auto. apply (returned_best L m os pi pd So q v0 Ht Hc HL Hq (Hd q Hq) Hacc HS s v); [eexists; exact H0|exact E].
Qed.

(** A solver that knows the answer. *)
Lemma constant_exact L m os pi pd d v : tidy m os -> compiled_by os pi pd -> sound_lib L m -> wf_data m d -> Forall (accepted L d) (comps_of pd) -> best L d pd v -> exact_at L (fun _ => mkSol v [] []) m pd d.
Proof.
  intros Ht Hc HL Hd Ha B Q HQ n -> _. cbn [sol_primal]. destruct (program_shaped L m os pi pd Ht Hc HL d Hd Ha) as (N & _). rewrite (proj2 (hessian_shape L m pd d Q N HQ)), <- N.
  now apply (program_optimal L m os pi pd d Q v Ht Hc HL Hd Ha HQ).
Qed.

(** ** The two counterexamples *)
Lemma crane_sound D : shaped_jac D -> sound_lib (crane D) rail.
Proof. intros H. split; [intros q Hq; exact (crane_wf D q Hq)|exact H]. Qed.
Lemma reach_accepted D : Forall (accepted (crane D) (update (crane D) rail up)) (comps_of drift_pd).
Proof. destruct drift_compiled as (_ & -> & _). destruct reach_ok as (_ & _ & _ & _ & W & Ex & _). constructor; [|constructor]. unfold accepted. rewrite Ex. split; [exact I|eexists; reflexivity]. Qed.
Theorem drift_solver_refuted D : sound_jac D -> shaped_jac D -> exists L os pd j q, l_jacrev L = D /\ let m := j_model j in tidy m os /\ compiled_by os 0 pd /\ sound_lib L m /\ comps_of pd = [j] /\ position_task None "tip" OBody j /\ target_is j [2; 0; 0] /\ uniform 2 j /\
  List.length q = m_nq m /\ normalised m q /\ smooth L j 3 q /\ admissible L (update L m q) pd (vzero (m_nv m)) /\
  forall So v0, exact_at L So m pd (update L m q) -> exists s v, solve L So m (tvec q) v0 pd = Ok (s, v) /\ derivative_at_0 (fun t => sq (value_after L j q v t)) (12 / 7).
Proof.
  intros HD HS. destruct reach_ok as (Hj & Ht & Em & Hu & W & Ex & _). destruct drift_compiled as (Hc & Ec & _). destruct (drift_best D HD) as [B U]. destruct (reach_smooth D) as [HM HJ].
  exists (crane D), drift_prog, drift_pd, reach, up. rewrite Em. split; [reflexivity|]. cbv zeta. split; [exact drift_tidy|]. split; [exact Hc|]. split; [now apply crane_sound|]. split; [exact Ec|]. split; [exact Hj|]. split; [exact Ht|]. split; [exact Hu|].
  split; [reflexivity|]. split; [apply crane_up|]. split; [split; [intros y _; eexists; split; [apply reach_value|reflexivity]|exists slopes; split; [exact HM|exact HJ]]|]. split; [apply drift_box; lra|].
  intros So v0 X. destruct (lone_returns (crane D) rail drift_prog 0 drift_pd So up v0 drift_tidy Hc (crane_sound D HS) eq_refl (crane_wf D up eq_refl) (reach_accepted D) X reach Ec) as (s & v & E & Bv); [unfold is_barrier; now rewrite Ex|eexists; exact (proj1 B)|].
  exists s, v. split; [exact E|now apply U].
Qed.
Lemma rig_kin_wf D pos rot anchor t q : List.length q = jnt_nq t -> wf_data (chain [t]) (kin (rig D pos rot anchor) (chain [t]) q).
Proof.
  intros Hq. unfold wf_data, is_mat. cbn [update rig l_make_constraint l_com_pos kin l_kinematics l_make_data set_qpos rig_kin rig_com d_qpos d_xpos d_xmat d_xquat d_xipos d_geom_xpos d_geom_xmat d_site_xpos d_site_xmat d_subtree_com d_cdof d_efc_pos d_efc_is_equality d_efc_J blank].
  repeat split; try (rewrite Hq; cbn; lia); try apply repeat_length; try (repeat constructor; fail).
  apply Forall_forall. intros r Hr. apply repeat_spec in Hr. subst r. reflexivity.
Qed.
Lemma rig_sound D pos rot anchor t : shaped_jac D -> sound_lib (rig D pos rot anchor) (chain [t]).
Proof. intros H. split; [|exact H]. intros q Hq. apply rig_kin_wf. rewrite Hq. cbn. lia. Qed.
Theorem away_solver_refuted D : sound_jac D -> shaped_jac D -> exists L os pd j, l_jacrev L = D /\ let m := j_model j in tidy m os /\ compiled_by os 0 pd /\ sound_lib L m /\ comps_of pd = [j] /\ frame_task None "tip" OBody j /\ target_frame_is j q_one (mkV 1 1 0) /\ uniform 2 j /\
  admissible L (update L m [0]) pd [0] /\
  forall So v0, exact_at L So m pd (update L m [0]) -> exists s v, solve L So m (tvec [0]) v0 pd = Ok (s, v) /\ derivative_at_0 (fun t => sq (value_after L j [0] v t)) (2 / 3).
Proof.
  intros HD HS. destruct (grip_ok JHinge (aside 1)) as (Hj & Ht & Em). destruct (away_compiled 1) as (Hc & Ec & _). destruct (away_rates 1 D HD) as (_ & _ & _ & _ & Dv).
  exists (lever 1 D), (away_prog 1), (away_pd 1), (grip JHinge (aside 1)). rewrite Em. cbv zeta. split; [reflexivity|]. split; [apply away_tidy|]. split; [exact Hc|]. split; [now apply rig_sound|]. split; [exact Ec|]. split; [exact Hj|]. split; [exact Ht|].
  split; [split; [vm_compute; repeat constructor|reflexivity]|]. split; [apply away_box; lra|]. intros So v0 X. destruct (away_weights 1) as (W & k & Ek & _).
  destruct (lone_returns (lever 1 D) (chain [JHinge]) (away_prog 1) 0 (away_pd 1) So [0] v0 (away_tidy 1) Hc (rig_sound D _ _ _ _ HS) eq_refl (rig_wf D (arc 1) _ _ JHinge [0] eq_refl)) with (j := grip JHinge (aside 1)) as (s & v & E & Bv); [|exact X|exact Ec|unfold is_barrier; now rewrite Ek|exists [0]; apply away_box; lra|].
  - rewrite Ec. constructor; [|constructor]. unfold accepted. rewrite Ek. vm_compute in Ek. injection Ek as _ <-. split; [exact I|exists [1; 0; 0; 0; 1; 1; 0]; split; reflexivity].
  - exists s, v. split; [exact E|]. apply (away_best 1 D HD) in Bv; [subst v|field]. replace (2 / 3) with (- (4 / 3 * (1 / 2 - 1))) by field. apply Dv.
Qed.
Lemma drift_solver_case D : sound_jac D -> shaped_jac D -> exact_at (crane D) (fun _ => mkSol [- (50 / 7); 0; 38 / 7; 0] [] []) rail drift_pd (update (crane D) rail up).
Proof.
  intros HD HS. destruct drift_compiled as (Hc & _). destruct (drift_best D HD) as [B _].
  exact (constant_exact (crane D) rail drift_prog 0 drift_pd _ _ drift_tidy Hc (crane_sound D HS) (crane_wf D up eq_refl) (reach_accepted D) B).
Qed.
Lemma away_accepted D : Forall (accepted (lever 1 D) (update (lever 1 D) (chain [JHinge]) [0])) (comps_of (away_pd 1)).
Proof.
  destruct (away_compiled 1) as (_ & -> & _). destruct (away_weights 1) as (W & k & Ek & _). constructor; [|constructor]. unfold accepted. rewrite Ek. vm_compute in Ek. injection Ek as _ <-. split; [exact I|exists [1; 0; 0; 0; 1; 1; 0]; split; reflexivity].
Qed.
Lemma away_solver_case D : sound_jac D -> shaped_jac D -> exact_at (lever 1 D) (fun _ => mkSol [2 / 3] [] []) (chain [JHinge]) (away_pd 1) (update (lever 1 D) (chain [JHinge]) [0]).
Proof.
  intros HD HS. destruct (away_compiled 1) as (Hc & _).
  apply (constant_exact (lever 1 D) (chain [JHinge]) (away_prog 1) 0 (away_pd 1) _ [2 / 3] (away_tidy 1) Hc (rig_sound D _ _ _ _ HS) (rig_wf D (arc 1) _ _ JHinge [0] eq_refl) (away_accepted D)).
  apply (away_best 1 D HD); [field|]. do 2 f_equal. field.
Qed.
Lemma one_tidy : tidy (chain [JHinge]) (one_prog JHinge).
Proof.
  split; [apply chain_sound|]. split; [repeat constructor; eapply made_position_task; exact (pos_comp_new None)|]. split; [repeat (constructor; [first [exact I|reflexivity]|]); constructor|].
  split; [repeat constructor|]. split; [repeat (constructor; [first [exact I|reflexivity|split; [reflexivity|first [exact I|reflexivity]]]|]); constructor|].
  intros k o Hk Hb. do 4 (destruct k as [|k]; [injection Hk as <-; first [contradiction | left; eexists; vm_compute; reflexivity]|]). destruct k; discriminate.
Qed.
Lemma hinge_solver_case D : sound_jac D -> shaped_jac D -> let L := crank D in let m := chain [JHinge] in let d := update L m [0] in
  tidy m (one_prog JHinge) /\ compiled_by (one_prog JHinge) 0 hinge_pd /\ sound_lib L m /\ wf_data m d /\ Forall (accepted L d) (comps_of hinge_pd) /\ exact_at L (fun _ => mkSol [2] [] []) m hinge_pd d /\
  solve L (fun _ => mkSol [2] [] []) m (tvec [0]) [] hinge_pd = Ok (mkSol [2] [] [], [2]).
Proof.
  intros HD HS. cbv zeta. destruct (hinge_case D HD) as (Hc & Ec & _ & _ & _ & _ & _ & _ & _ & _ & _ & B & H0 & _).
  assert (T : tidy (chain [JHinge]) (one_prog JHinge)) by apply one_tidy. assert (HL : sound_lib (crank D) (chain [JHinge])) by now apply rig_sound. assert (Hd : wf_data (chain [JHinge]) (update (crank D) (chain [JHinge]) [0])) by exact (rig_wf D circle _ _ JHinge [0] eq_refl).
  assert (Ha : Forall (accepted (crank D) (update (crank D) (chain [JHinge]) [0])) (comps_of hinge_pd)) by (rewrite Ec; constructor; [|constructor]; split; [exact I|eexists; reflexivity]).
  assert (X : exact_at (crank D) (fun _ => mkSol [2] [] []) (chain [JHinge]) hinge_pd (update (crank D) (chain [JHinge]) [0])) by exact (constant_exact _ _ _ 0 hinge_pd _ _ T Hc HL Hd Ha B).
  split; [exact T|]. split; [exact Hc|]. split; [exact HL|]. split; [exact Hd|]. split; [exact Ha|]. split; [exact X|].
  destruct (lone_returns (crank D) (chain [JHinge]) (one_prog JHinge) 0 hinge_pd (fun _ => mkSol [2] [] []) [0] [] T Hc HL eq_refl Hd Ha X _ Ec eq_refl) as (s & v & E & _); [eexists; exact H0|].
  rewrite E. f_equal. change (solve_from_data (crank D) (fun _ => mkSol [2] [] []) (chain [JHinge]) [] hinge_pd (update (crank D) (chain [JHinge]) [0]) = Ok (s, v)) in E.
  unfold solve_from_data in E. destruct (assemble (crank D) (chain [JHinge]) hinge_pd (update (crank D) (chain [JHinge]) [0])) as [Q|e]; [|discriminate E].
  cbn [bind sol_primal] in E. injection E as <- <-. reflexivity.
Qed.
(** Robots with ball joints only. *)
Theorem solver_balls L os pi pd So q v0 j k g : let m := j_model j in tidy m os -> compiled_by os pi pd -> sound_lib L m -> List.length q = m_nq m -> wf_data m (update L m q) -> Forall (accepted L (update L m q)) (comps_of pd) ->
  exact_at L So m pd (update L m q) -> sound_jac (l_jacrev L) -> automatic j -> kinematic L j -> wf_joints m -> smooth L j k q ->
  comps_of pd = [j] -> jd_model pd = m -> seeks j = true -> uniform g j -> nonneg_weights j -> List.length (j_gain j) = k ->
  admissible L (update L m q) pd (vzero (m_nv m)) -> normalised m q -> d_qpos (update L m q) = q -> (forall i, ~ scalar_joint m i) -> (forall i, ~ free_joint m i) ->
  exists s v, solve L So m (tvec q) v0 pd = Ok (s, v) /\ exists l, derivative_at_0 (fun t => g / 2 * sq (mv (weight_of j) (value_after L j q v t))) l /\ l <= 0.
Proof.
  intros m Ht Hc HL Hq Hd Hacc HS HD Ha Hk Hw Hs Ec Em Se Hu Hn Hg H0 Hnq Hdq N1 N2.
  destruct (lone_returns L m os pi pd So q v0 Ht Hc HL Hq Hd Hacc HS j Ec (lone_task_barrier j Se)) as (s & v & E & B); [eexists; exact H0|].
  exists s, v. split; [exact E|]. eapply lone_turning; eauto. split; intros i Hi; exfalso; [exact (N1 i Hi)|exact (N2 i Hi)].
Qed.
Lemma ball_tidy : tidy (chain [JBall]) (one_prog JBall).
Proof.
  split; [apply chain_sound|]. split; [repeat constructor; eapply made_position_task; exact (pos_comp_new None)|]. split; [repeat (constructor; [first [exact I|reflexivity]|]); constructor|].
  split; [repeat constructor|]. split; [repeat (constructor; [first [exact I|reflexivity|split; [reflexivity|first [exact I|reflexivity]]]|]); constructor|].
  intros k o Hk Hb. do 4 (destruct k as [|k]; [injection Hk as <-; first [contradiction | left; eexists; vm_compute; reflexivity]|]). destruct k; discriminate.
Qed.
Lemma ball_solver_case D : sound_jac D -> shaped_jac D -> let L := joystick D in let m := chain [JBall] in let d := update L m [1; 0; 0; 0] in
  tidy m (one_prog JBall) /\ compiled_by (one_prog JBall) 0 ball_pd /\ sound_lib L m /\ wf_data m d /\ Forall (accepted L d) (comps_of ball_pd) /\ exact_at L (fun _ => mkSol [0; 0; 1] [] []) m ball_pd d /\
  (forall i, ~ scalar_joint m i) /\ (forall i, ~ free_joint m i).
Proof.
  intros HD HS. cbv zeta. destruct (ball_case D HD) as (Hc & Ec & _ & _ & _ & _ & _ & _ & _ & _ & _ & B & _).
  assert (HL : sound_lib (joystick D) (chain [JBall])) by now apply rig_sound. assert (Hd : wf_data (chain [JBall]) (update (joystick D) (chain [JBall]) [1; 0; 0; 0])) by exact (rig_wf D sphere _ _ JBall [1; 0; 0; 0] eq_refl).
  assert (Ha : Forall (accepted (joystick D) (update (joystick D) (chain [JBall]) [1; 0; 0; 0])) (comps_of ball_pd)) by (rewrite Ec; constructor; [|constructor]; split; [exact I|eexists; reflexivity]).
  split; [exact ball_tidy|]. split; [exact Hc|]. split; [exact HL|]. split; [exact Hd|]. split; [exact Ha|]. split; [exact (constant_exact _ _ _ 0 ball_pd _ _ ball_tidy Hc HL Hd Ha B)|].
  split; intros i H; [destruct H as (t & H & K)|]; destruct i as [|[|i]]; try discriminate H. injection H as <-. discriminate K.
Qed.
