(** C127, C128, C129: one free body, the base of a floating robot. *)
From Coq Require Import Lia.
From Verif Require Import Base Lin LinFacts Mjx Typing Component Problem SpecComponent SpecJoint SpecHistory SpecMotion SpecConf Rot Conf FrameJac JaxComponents LocalIK Witness SpecTree SpecShape SpecValue SpecDeriv SpecQP SpecSolve SpecDescent SpecFit SpecProblem SpecDrift.
From Verif Require Import CompThms2 BindCases ConfCases ValueCases MotionFacts2 ConfFacts ConfFacts4 FitFacts DerivFacts DerivThms DerivThms2 DerivCases LogCases QPCases DescentFacts DescentFacts2 AwayCases SolveThms DriftCases DriftSolve CrossThms CrossCases SlipThms SlipCases DoubleCases.
Open Scope R_scope.

(** The body is one unit along the first axis of a free joint. *)
Definition buoy (q : list R) : v3 :=
  let w := nth 3 q 0 in let x := nth 4 q 0 in let y := nth 5 q 0 in let z := nth 6 q 0 in let n := w * w + x * x + y * y + z * z in
  mkV (nth 0 q 0 + (w * w + x * x - y * y - z * z) / n) (nth 1 q 0 + 2 * (x * y + w * z) / n) (nth 2 q 0 + 2 * (x * z - w * y) / n).
Definition buoy_rot (q : list R) : m3 := q_mat (mkQ (nth 3 q 0) (nth 4 q 0) (nth 5 q 0) (nth 6 q 0)).
Definition floater D : lib := rig D buoy buoy_rot v3_zero.
Definition level : vec := [0; 0; 0; 1; 0; 0; 0].
Lemma buoy_slopes : has_gradient (fun y => vx (buoy y)) level [1; 0; 0; 0; 0; 0; 0] /\ has_gradient (fun y => vy (buoy y)) level [0; 1; 0; 0; 0; 0; 2] /\ has_gradient (fun y => vz (buoy y)) level [0; 0; 1; 0; 0; -2; 0].
Proof. unfold level, buoy; cbn [vx vy vz]. repeat split; (eapply grad_eq; [|grad]); cbn [nth]; try lra; cbn; repeat (apply f_equal2; [field|]); reflexivity. Qed.
Lemma free_joint_ok : wf_joints (chain [JFree]) /\ normalised (chain [JFree]) level.
Proof.
  split; [apply sound_wf, chain_sound|]. intros j a H. destruct H as [(H & ->)|(H & ->)]; destruct j as [|[|j]]; try discriminate H. unfold norm2_at, level. cbn. ring.
Qed.
Lemma free_twice a b c x y z : turns_twice (chain [JFree]) [a; b; c; x; y; z] [a; b; c; 2 * x; 2 * y; 2 * z].
Proof.
  split; [reflexivity|]. split; [|split].
  - intros j (t & H & K). destruct j as [|[|j]]; try discriminate H. injection H as <-. discriminate K.
  - intros j H. destruct j as [|[|j]]; try discriminate H. reflexivity.
  - intros j u w H. destruct H as [(H & -> & ->)|(H & -> & ->)]; destruct j as [|[|j]]; try discriminate H. reflexivity.
Qed.
(** What a component on the body reports, and what happens, at [level]. *)
Lemma floater_rows D j k G : sound_jac D -> automatic j -> kinematic (floater D) j -> j_model j = chain [JFree] -> smooth (floater D) j k level -> is_mat k 7 G -> has_jacobian (value_at (floater D) j) level G ->
  exists E, jac_dq2v (chain [JFree]) level = Ok E /\ jacobian (floater D) j (update (floater D) (chain [JFree]) level) = Ok (mm 6 G E) /\
  forall a b c x y z i, (i < k)%nat -> derivative_at_0 (fun t => nth i (value_after (floater D) j level [a; b; c; 2 * x; 2 * y; 2 * z] t) 0) (nth i (mv (mm 6 G E) [a; b; c; x; y; z]) 0).
Proof.
  intros HD Ha Hk Em Hs HM HJ. destruct free_joint_ok as [Hw Hn].
  assert (A : jacobian (floater D) j (update (floater D) (j_model j) level) = to_velocity (j_model j) (update (floater D) (j_model j) level) G) by (apply (auto_jacobian (floater D) j k level G HD Ha Hk); [now rewrite Em|exact (proj1 Hs)|now rewrite Em|exact HJ|reflexivity]).
  rewrite Em in A. unfold to_velocity in A. change (Nat.eqb (m_nq (chain [JFree])) (m_nv (chain [JFree]))) with false in A. cbv iota in A. change (d_qpos (update (floater D) (chain [JFree]) level)) with level in A.
  destruct (jac_dq2v (chain [JFree]) level) as [E|e] eqn:EE; [|vm_compute in EE; discriminate]. exists E. split; [reflexivity|]. cbn [bind] in A.
  assert (V : forall a b c x y z, exists J, jacobian (floater D) j (update (floater D) (j_model j) level) = Ok J /\ is_mat k (m_nv (j_model j)) J /\
    forall i, (i < k)%nat -> derivative_at_0 (fun t => nth i (value_after (floater D) j level [a; b; c; 2 * x; 2 * y; 2 * z] t) 0) (nth i (mv J [a; b; c; x; y; z]) 0)).
  { intros. apply automatic_along_motion; auto; rewrite ?Em; auto; try reflexivity. apply free_twice. }
  destruct (V 0 0 0 0 0 0) as (J & EJ & _). rewrite Em, A in EJ. destruct (is_matb (List.length G) (m_nq (chain [JFree])) G); [|discriminate]. split; [exact A|].
  intros a b c x y z i Hi. destruct (V a b c x y z) as (J' & EJ' & _ & R). rewrite Em, A in EJ'. apply Ok_inj in EJ'. subst J'. now apply R.
Qed.
Lemma six_box (L : lib) d pd v : m_nv (jd_model pd) = 6%nat -> jd_vmin pd = repeat (-10) 6 -> jd_vmax pd = repeat 10 6 -> List.length v = 6%nat -> Forall (fun x => -10 <= x <= 10) v -> Forall (fun j => (is_barrier j = true -> cbf L d v j) /\ (is_hard j = true -> holds_exactly L d v j)) (comps_of pd) -> admissible L d pd v.
Proof.
  intros En El Eh Lv B F. unfold admissible. rewrite En, El, Eh. split; [exact Lv|]. destruct v as [|a [|b [|c [|x [|y [|z [|? ?]]]]]]]; try discriminate. do 6 (let B1 := fresh in let B2 := fresh in inversion_clear B as [|? ? B1 B2]; rename B2 into B). split; [|split; [|exact F]]; cbn; repeat (constructor; [lra|]); constructor.
Qed.

(** ** A barrier: the second coordinate is not to become negative *)
Lemma float_side : position_barrier (Some (mvec [0; 1; 0]%Z)) "tip" OBody "min" (side JFree).
Proof.
  exists "wall"%string, (tscalar 1), (Some (tscalar 0)), None, None, 0, side_comp. split; [exact side_new|].
  eapply compiled_is; [reflexivity|constructor; [apply chain_sound|constructor]|split; [vm_compute; reflexivity|exact I]|eexists; vm_compute; reflexivity].
Qed.
Lemma float_side_tidy : tidy (chain [JFree]) (side_prog JFree).
Proof.
  split; [apply chain_sound|]. split; [repeat constructor; eapply made_position_barrier; exact side_new|]. split; [repeat (constructor; [first [exact I|reflexivity]|]); constructor|].
  split; [repeat constructor|]. split; [repeat (constructor; [first [exact I|reflexivity|split; [reflexivity|first [exact I|reflexivity]]]|]); constructor|].
  intros k o Hk Hb. do 3 (destruct k as [|k]; [injection Hk as <-; first [contradiction | left; eexists; vm_compute; reflexivity]|]). destruct k; discriminate.
Qed.
Theorem float_cross D : sound_jac D -> shaped_jac D -> exists L os pd j q So s v, l_jacrev L = D /\ let m := j_model j in m_jnt_type m = [JFree] /\ tidy m os /\ compiled_by os 0 pd /\ sound_lib L m /\ comps_of pd = [j] /\
  position_barrier (Some (mvec [0; 1; 0]%Z)) "tip" OBody "min" j /\ uniform 1 j /\ List.length q = m_nq m /\ normalised m q /\ smooth L j 1 q /\ value_at L j q = [0] /\ may_rest L (update L m q) pd /\
  (forall y, List.length y = m_nq m -> position (update L m y) OBody 1 = v3_list (buoy y)) /\
  exact_at L So m pd (update L m q) /\ solve L So m (tvec q) [] pd = Ok (s, v) /\ derivative_at_0 (fun t => nth 0 (value_after L j q v t) 0) (-1).
Proof.
  intros HD HS. destruct (side_ext JFree) as (Em & Ex & _ & Hu). destruct (side_auto D buoy buoy_rot v3_zero JFree) as [Ha Hk]. destruct buoy_slopes as (_ & Sy & _). destruct free_joint_ok as [Hw Hn].
  assert (Hs : smooth (floater D) (side JFree) 1 level) by exact (side_is_smooth D buoy buoy_rot v3_zero JFree level [0; 1; 0; 0; 0; 0; 2] eq_refl Sy). destruct (side_smooth D buoy buoy_rot v3_zero JFree level [0; 1; 0; 0; 0; 0; 2] eq_refl Sy) as [HM HJ].
  destruct (floater_rows D (side JFree) 1 _ HD Ha Hk Em Hs HM HJ) as (E & EE & A & R). vm_compute in EE. apply Ok_inj in EE. subst E.
  assert (EV : call (floater D) (side JFree) (update (floater D) (chain [JFree]) level) = Ok [0]) by (etransitivity; [exact (side_value D buoy buoy_rot v3_zero JFree level)|]; unfold buoy, level; cbn; do 2 f_equal; field).
  assert (Ec : comps_of (side_pd JFree) = [side JFree]) by (vm_compute; reflexivity). assert (Hc : compiled_by (side_prog JFree) 0 (side_pd JFree)) by (vm_compute; reflexivity).
  assert (El : jd_vmin (side_pd JFree) = repeat (-10) 6) by (vm_compute; reflexivity). assert (Eh : jd_vmax (side_pd JFree) = repeat 10 6) by (vm_compute; reflexivity).
  assert (HL : sound_lib (floater D) (chain [JFree])) by now apply rig_sound. assert (Hd : wf_data (chain [JFree]) (update (floater D) (chain [JFree]) level)) by exact (rig_wf D buoy _ _ JFree level eq_refl).
  assert (Hacc : Forall (accepted (floater D) (update (floater D) (chain [JFree]) level)) (comps_of (side_pd JFree))) by (rewrite Ec; constructor; [|constructor]; unfold accepted; rewrite Ex; split; [exact I|]; split; eexists; reflexivity).
  match type of A with _ = Ok ?J => set (J0 := J) in A, R end. assert (NZ : frob2 J0 <> 0) by (unfold J0, frob2; cbn; lra).
  assert (Av : admissible (floater D) (update (floater D) (chain [JFree]) level) (side_pd JFree) [0; -2; 0; 2 * 0; 2 * 0; 2 * (1 / 2)]).
  { apply six_box; [reflexivity|exact El|exact Eh|reflexivity|repeat (constructor; [lra|]); constructor|]. rewrite Ec. constructor; [|constructor]. split; [intros _ J e EJ Ee|discriminate].
    rewrite A in EJ. apply Ok_inj in EJ. subst J. rewrite EV in Ee. apply Ok_inj in Ee. subst e. rewrite (gained_uniform 1 (side JFree) _ Hu) by reflexivity. unfold J0, vscale, vneg. cbn. constructor; [lra|constructor]. }
  assert (T : forall u, total_cost (floater D) (update (floater D) (chain [JFree]) level) (comps_of (side_pd JFree)) u 0).
  { intros u. rewrite Ec. eexists. split; [constructor; [exact (cost_barrier _ _ (side JFree) u 0 _ _ Ex A NZ)|constructor]|]. unfold vsum; cbn. unfold Rdiv. ring. }
  assert (B : best (floater D) (update (floater D) (chain [JFree]) level) (side_pd JFree) [0; -2; 0; 2 * 0; 2 * 0; 2 * (1 / 2)]) by (split; [exact Av|]; exists 0; split; [apply T|]; intros u _; exists 0; split; [apply T|lra]).
  assert (X := constant_exact _ _ _ 0 _ _ _ float_side_tidy Hc HL Hd Hacc B).
  exists (floater D), (side_prog JFree), (side_pd JFree), (side JFree), level, (fun _ => mkSol [0; -2; 0; 2 * 0; 2 * 0; 2 * (1 / 2)] [] []), (mkSol [0; -2; 0; 2 * 0; 2 * 0; 2 * (1 / 2)] [] []), [0; -2; 0; 2 * 0; 2 * 0; 2 * (1 / 2)].
  split; [reflexivity|]. rewrite Em. cbv zeta. split; [reflexivity|]. split; [exact float_side_tidy|]. split; [exact Hc|]. split; [exact HL|]. split; [exact Ec|]. split; [exact float_side|]. split; [exact Hu|]. split; [reflexivity|]. split; [exact Hn|]. split; [exact Hs|].
  split; [unfold value_at; rewrite Em, EV; reflexivity|]. split.
  { unfold may_rest. rewrite Ec, El, Eh. change (m_nv (jd_model (side_pd JFree))) with 6%nat. split; [repeat (constructor; [lra|]); constructor|]. split; [repeat (constructor; [lra|]); constructor|]. constructor; [|constructor]. split; [intros _|discriminate].
    split; [destruct Hu as [F _]; apply Forall_forall; intros x Hx; rewrite Forall_forall in F; rewrite <- (F x Hx); lra|]. split; [intros x Hx; rewrite (proj2 Hu); exact Hx|]. intros e Ee. rewrite EV in Ee. apply Ok_inj in Ee. subst e. constructor; [lra|constructor]. }
  split; [reflexivity|]. split; [exact X|]. split.
  - destruct (program_best (floater D) (chain [JFree]) (side_prog JFree) 0 (side_pd JFree) float_side_tidy Hc HL (fun _ => mkSol [0; -2; 0; 2 * 0; 2 * 0; 2 * (1 / 2)] [] []) (tvec level) [] eq_refl Hd Hacc X) as [(s & v & E & _)|(_ & j & J & Hj & _ & EJ & Z)]; [eexists; exact Av| |exfalso; rewrite Ec in Hj; destruct Hj as [<-|[]]; cbn [tvec t_data] in EJ; rewrite A in EJ; apply Ok_inj in EJ; subst J; contradiction].
    pose proof (constant_returns _ _ _ _ _ _ _ _ E) as [-> ->]. exact E.
  - pose proof (R 0 (-2) 0 0 0 (1 / 2) 0%nat ltac:(lia)) as K. match type of K with derivative_at_0 _ ?x => replace x with (-1) in K by (unfold J0; cbn; field) end. exact K.
Qed.

(** ** A hard constraint: the second coordinate is to be zero *)
Definition second_of (d : mjdata) : list R := [nth 1 (nth 1 (d_xpos d) []) 0].
Definition keel_comp : comp := unwrap (new_custom_constraint "keel" (tscalar 1) None true None 1 second_of) (pos_comp None).
Lemma keel_new : new_custom_constraint "keel" (tscalar 1) None true None 1 second_of = Ok keel_comp.
Proof. reflexivity. Qed.
Definition keel_prog : list wop := [WNewProblem (chain [JFree]) (tscalar (-10)) (tscalar 10); WNewComp keel_comp; WAdd 0 0].
Definition keel_pd : jdata := result (fst (step (WCompile 0) (run keel_prog empty_world))).
Definition keel : jaxc := compiled [OpModel (chain [JFree])] keel_comp.
Lemma keel_ext : j_model keel = chain [JFree] /\ uniform 1 keel /\ j_dim keel = 1%Z /\ exists W, j_ext keel = JConstraint true true W (JCCustom second_of).
Proof. split; [reflexivity|]. split; [split; [vm_compute; repeat constructor|reflexivity]|]. split; [reflexivity|]. eexists. vm_compute. reflexivity. Qed.
Lemma keel_value D q : call (floater D) keel (update (floater D) (chain [JFree]) q) = Ok [vy (buoy q)].
Proof. destruct keel_ext as (_ & _ & _ & W & E). unfold call. rewrite E. reflexivity. Qed.
Lemma keel_tidy : tidy (chain [JFree]) keel_prog.
Proof.
  split; [apply chain_sound|]. split; [repeat constructor; eapply made_custom_constraint; exact keel_new|]. split; [repeat (constructor; [first [exact I|reflexivity]|]); constructor|].
  split; [repeat constructor|]. split; [repeat (constructor; [first [exact I|reflexivity|split; [reflexivity|first [exact I|reflexivity]]]|]); constructor|].
  intros k o Hk Hb. do 3 (destruct k as [|k]; [injection Hk as <-; first [contradiction | left; eexists; vm_compute; reflexivity]|]). destruct k; discriminate.
Qed.
Theorem float_slip D : sound_jac D -> shaped_jac D -> exists L os pd j q So s v W f, l_jacrev L = D /\ let m := j_model j in m_jnt_type m = [JFree] /\ tidy m os /\ compiled_by os 0 pd /\ sound_lib L m /\ comps_of pd = [j] /\
  j_ext j = JConstraint true true W (JCCustom f) /\ uniform 1 j /\ List.length q = m_nq m /\ normalised m q /\ smooth L j 1 q /\ value_at L j q = [0] /\ may_rest L (update L m q) pd /\
  (forall y, List.length y = m_nq m -> value_at L j y = [vy (buoy y)] /\ position (update L m y) OBody 1 = v3_list (buoy y)) /\
  exact_at L So m pd (update L m q) /\ solve L So m (tvec q) [] pd = Ok (s, v) /\ derivative_at_0 (fun t => nth 0 (value_after L j q v t) 0) (-1).
Proof.
  intros HD HS. destruct keel_ext as (Em & Hu & Ed & W & Ex). destruct buoy_slopes as (_ & Sy & _). destruct free_joint_ok as [Hw Hn].
  assert (Ha : automatic keel) by (unfold automatic; now rewrite Ex). assert (Hk : kinematic (floater D) keel) by (intros y Hy; rewrite Ex; unfold call; rewrite Ex; reflexivity).
  assert (HM : is_mat 1 7 [[0; 1; 0; 0; 0; 0; 2]]) by (split; [reflexivity|repeat constructor]).
  assert (HJ : has_jacobian (value_at (floater D) keel) level [[0; 1; 0; 0; 0; 0; 2]]).
  { intros i Hi. cbn in Hi. destruct i as [|i]; [|lia]. cbn [nth]. unfold value_at. rewrite Em. apply grad_ext with (F := fun y => vy (buoy y)); [exact Sy|]. intros y _. rewrite keel_value. reflexivity. }
  assert (Hs : smooth (floater D) keel 1 level) by (split; [intros y _; eexists; split; [apply keel_value|reflexivity]|exists [[0; 1; 0; 0; 0; 0; 2]]; split; [exact HM|exact HJ]]).
  destruct (floater_rows D keel 1 _ HD Ha Hk Em Hs HM HJ) as (E & EE & A & R). vm_compute in EE. apply Ok_inj in EE. subst E.
  assert (EV : call (floater D) keel (update (floater D) (chain [JFree]) level) = Ok [0]) by (rewrite keel_value; unfold buoy, level; cbn; do 2 f_equal; field).
  assert (Ec : comps_of keel_pd = [keel]) by (vm_compute; reflexivity). assert (Hc : compiled_by keel_prog 0 keel_pd) by (vm_compute; reflexivity).
  assert (El : jd_vmin keel_pd = repeat (-10) 6) by (vm_compute; reflexivity). assert (Eh : jd_vmax keel_pd = repeat 10 6) by (vm_compute; reflexivity).
  assert (HL : sound_lib (floater D) (chain [JFree])) by now apply rig_sound. assert (Hd : wf_data (chain [JFree]) (update (floater D) (chain [JFree]) level)) by exact (rig_wf D buoy _ _ JFree level eq_refl).
  assert (Hacc : Forall (accepted (floater D) (update (floater D) (chain [JFree]) level)) (comps_of keel_pd)) by (rewrite Ec; constructor; [|constructor]; unfold accepted; rewrite Ex; intros d _; exact Ed).
  match type of A with _ = Ok ?J => set (J0 := J) in A, R end.
  set (u := [0; -2; 0; 2 * 0; 2 * 0; 2 * (1 / 2)]).
  assert (Av : admissible (floater D) (update (floater D) (chain [JFree]) level) keel_pd u).
  { apply six_box; [reflexivity|exact El|exact Eh|reflexivity|repeat (constructor; [lra|]); constructor|]. rewrite Ec. constructor; [|constructor]. split; [discriminate|intros _ J e EJ Ee].
    rewrite A in EJ. apply Ok_inj in EJ. subst J. rewrite EV in Ee. apply Ok_inj in Ee. subst e. rewrite (gained_uniform 1 keel _ Hu) by reflexivity. unfold J0, u, vscale, vneg. cbn. f_equal. field. }
  assert (T : forall v, total_cost (floater D) (update (floater D) (chain [JFree]) level) (comps_of keel_pd) v 0).
  { intros v. rewrite Ec. eexists. split; [constructor; [exact (cost_hard _ _ keel v _ _ _ Ex)|constructor]|]. unfold vsum; cbn. ring. }
  assert (B : best (floater D) (update (floater D) (chain [JFree]) level) keel_pd u) by (split; [exact Av|]; exists 0; split; [apply T|]; intros v _; exists 0; split; [apply T|lra]).
  assert (X := constant_exact _ _ _ 0 _ _ _ keel_tidy Hc HL Hd Hacc B).
  exists (floater D), keel_prog, keel_pd, keel, level, (fun _ => mkSol u [] []), (mkSol u [] []), u, W, second_of.
  split; [reflexivity|]. rewrite Em. cbv zeta. split; [reflexivity|]. split; [exact keel_tidy|]. split; [exact Hc|]. split; [exact HL|]. split; [exact Ec|]. split; [exact Ex|]. split; [exact Hu|]. split; [reflexivity|]. split; [exact Hn|]. split; [exact Hs|].
  split; [unfold value_at; rewrite Em, EV; reflexivity|]. split.
  { unfold may_rest. rewrite Ec, El, Eh. change (m_nv (jd_model keel_pd)) with 6%nat. split; [repeat (constructor; [lra|]); constructor|]. split; [repeat (constructor; [lra|]); constructor|]. constructor; [|constructor]. split; [discriminate|intros _].
    split; [reflexivity|]. intros e Ee. rewrite EV in Ee. apply Ok_inj in Ee. subst e. reflexivity. }
  split; [intros y _; split; [unfold value_at; rewrite Em, keel_value; reflexivity|reflexivity]|]. split; [exact X|]. split.
  - destruct (lone_returns (floater D) (chain [JFree]) keel_prog 0 keel_pd (fun _ => mkSol u [] []) level [] keel_tidy Hc HL eq_refl Hd Hacc X _ Ec) as (s & v & E & _); [unfold is_barrier; now rewrite Ex|eexists; exact Av|].
    pose proof (constant_returns _ _ _ _ _ _ _ _ E) as [-> ->]. exact E.
  - pose proof (R 0 (-2) 0 0 0 (1 / 2) 0%nat ltac:(lia)) as K. match type of K with derivative_at_0 _ ?x => replace x with (-1) in K by (unfold J0; cbn; field) end. exact K.
Qed.

(** ** A lone task: the body at (1, 0, 0) is to go to (1, 1, 0) *)
Definition float_pd : jdata := result (fst (step (WCompile 0) (run (one_prog JFree) empty_world))).
Lemma float_tidy : tidy (chain [JFree]) (one_prog JFree).
Proof.
  split; [apply chain_sound|]. split; [repeat constructor; eapply made_position_task; exact (pos_comp_new None)|]. split; [repeat (constructor; [first [exact I|reflexivity]|]); constructor|].
  split; [repeat constructor|]. split; [repeat (constructor; [first [exact I|reflexivity|split; [reflexivity|first [exact I|reflexivity]]]|]); constructor|].
  intros k o Hk Hb. do 4 (destruct k as [|k]; [injection Hk as <-; first [contradiction | left; eexists; vm_compute; reflexivity]|]). destruct k; discriminate.
Qed.
Theorem float_drift D : sound_jac D -> shaped_jac D -> exists L os pd j q So s v, l_jacrev L = D /\ let m := j_model j in m_jnt_type m = [JFree] /\ tidy m os /\ compiled_by os 0 pd /\ sound_lib L m /\ comps_of pd = [j] /\
  position_task None "tip" OBody j /\ target_is j [1; 1; 0] /\ uniform 2 j /\ List.length q = m_nq m /\ normalised m q /\ smooth L j 3 q /\ admissible L (update L m q) pd (vzero (m_nv m)) /\
  (forall y, List.length y = m_nq m -> position (update L m y) OBody 1 = v3_list (buoy y)) /\
  exact_at L So m pd (update L m q) /\ solve L So m (tvec q) [] pd = Ok (s, v) /\ derivative_at_0 (fun t => sq (value_after L j q v t)) 4.
Proof.
  intros HD HS. destruct (spot_weights JFree) as (W & Ex & HW). destruct (spot_ok JFree [1; 1; 0] eq_refl) as (Hj & Ht & Em & _). set (j := spot [JFree] [1; 1; 0]) in *. destruct buoy_slopes as (Sx & Sy & Sz). destruct free_joint_ok as [Hw Hn].
  assert (Ha : automatic j) by now apply spot_automatic. assert (Hk : kinematic (floater D) j) by now apply spot_kinematic.
  destruct (spot_smooth D buoy buoy_rot v3_zero JFree 1 1 0 level _ _ _ eq_refl Sx Sy Sz eq_refl eq_refl eq_refl) as [HM HJ]. fold j in HJ.
  assert (Vq : forall y, call (floater D) j (update (floater D) (j_model j) y) = Ok [vx (buoy y) - 1; vy (buoy y) - 1; vz (buoy y) - 0]) by (intros y; exact (spot_value D buoy buoy_rot v3_zero JFree 1 1 0 y)).
  assert (Hs : smooth (floater D) j 3 level) by (split; [intros y _; eexists; split; [apply Vq|reflexivity]|eexists; split; [exact HM|exact HJ]]).
  destruct (floater_rows D j 3 _ HD Ha Hk Em Hs HM HJ) as (E & EE & A & R). vm_compute in EE. apply Ok_inj in EE. subst E.
  assert (EV : call (floater D) j (update (floater D) (chain [JFree]) level) = Ok [0; -1; 0]) by (etransitivity; [exact (Vq level)|]; unfold buoy, level; cbn; f_equal; repeat (apply f_equal2; [field|]); reflexivity).
  assert (Ec : comps_of float_pd = [j]) by (vm_compute; reflexivity). assert (Hc : compiled_by (one_prog JFree) 0 float_pd) by (vm_compute; reflexivity).
  assert (El : jd_vmin float_pd = repeat (-10) 6) by (vm_compute; reflexivity). assert (Eh : jd_vmax float_pd = repeat 10 6) by (vm_compute; reflexivity).
  assert (HL : sound_lib (floater D) (chain [JFree])) by now apply rig_sound. assert (Hd : wf_data (chain [JFree]) (update (floater D) (chain [JFree]) level)) by exact (rig_wf D buoy _ _ JFree level eq_refl).
  assert (Hacc : Forall (accepted (floater D) (update (floater D) (chain [JFree]) level)) (comps_of float_pd)) by (rewrite Ec; constructor; [|constructor]; unfold accepted; rewrite Ex; split; [exact I|eexists; reflexivity]).
  match type of A with _ = Ok ?J => set (J0 := J) in A, R end. assert (Hu : uniform 2 j) by apply spot_uniform.
  assert (Gn : gained j [0; -1; 0] = [0; -2; 0]). { rewrite (gained_uniform 2 _ _ Hu) by reflexivity. unfold vscale. cbn. repeat (apply f_equal2; [ring|]). reflexivity. }
  assert (AD : forall v, List.length v = 6%nat -> Forall (fun x => -10 <= x <= 10) v -> admissible (floater D) (update (floater D) (chain [JFree]) level) float_pd v).
  { intros v Lv Bv. apply six_box; [reflexivity|exact El|exact Eh|exact Lv|exact Bv|]. rewrite Ec. constructor; [|constructor]. unfold is_barrier, is_hard. rewrite Ex. split; discriminate. }
  set (u := [0; -6; 0; 2 * 0; 2 * 0; 2 * 2]). assert (Av : admissible (floater D) (update (floater D) (chain [JFree]) level) float_pd u) by (apply AD; [reflexivity|repeat (constructor; [lra|]); constructor]).
  destruct (zero_best (floater D) (update (floater D) (chain [JFree]) level) float_pd j W _ J0 [0; -1; 0] u Ec Ex A EV HW eq_refl) as [B _]; [now rewrite Gn|exact Av|rewrite Gn; unfold J0, u; cbn; repeat (apply f_equal2; [field|]); reflexivity|].
  assert (X := constant_exact _ _ _ 0 _ _ _ float_tidy Hc HL Hd Hacc B).
  exists (floater D), (one_prog JFree), float_pd, j, level, (fun _ => mkSol u [] []), (mkSol u [] []), u.
  split; [reflexivity|]. rewrite Em. cbv zeta. split; [reflexivity|]. split; [exact float_tidy|]. split; [exact Hc|]. split; [exact HL|]. split; [exact Ec|]. split; [exact Hj|]. split; [exact Ht|]. split; [exact Hu|]. split; [reflexivity|]. split; [exact Hn|]. split; [exact Hs|].
  split; [apply AD; [reflexivity|repeat (constructor; [lra|]); constructor]|]. split; [reflexivity|]. split; [exact X|]. split.
  - destruct (lone_returns (floater D) (chain [JFree]) (one_prog JFree) 0 float_pd (fun _ => mkSol u [] []) level [] float_tidy Hc HL eq_refl Hd Hacc X _ Ec) as (s & v & E & _); [unfold is_barrier; now rewrite Ex|eexists; exact Av|].
    pose proof (constant_returns _ _ _ _ _ _ _ _ E) as [-> ->]. exact E.
  - assert (LV : forall t, List.length (value_after (floater D) j level u t) = 3%nat).
    { intros t. unfold value_after, value_at. destruct (integrate_length (j_model j) level u t) as (q' & -> & _); [rewrite Em; exact Hw|now rewrite Em|now rewrite Em|]. rewrite Vq. reflexivity. }
    assert (V0 : value_after (floater D) j level u 0 = [0; -1; 0]) by (unfold value_after, value_at; rewrite Em; rewrite integrate_now by (try reflexivity; assumption); now rewrite EV).
    pose proof (lim_sq (-1) 1 3 _ 0 (mv J0 [0; -6; 0; 0; 0; 2]) ltac:(lra) (fun s _ => LV s) eq_refl (fun i Hi => R 0 (-6) 0 0 0 2 i Hi) W 2) as G.
    fold u in G. rewrite V0, !HW in G by reflexivity.
    match type of G with derivable_pt_lim _ _ ?x => replace x with 4 in G by (unfold J0, dot; cbn; field) end.
    revert G. apply derivable_pt_lim_ext. intros t. rewrite HW by apply LV. field.
Qed.
