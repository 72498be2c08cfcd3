(** C128: a crane on which a position barrier lets its limit be crossed. *)
From Coq Require Import Lia.
From Verif Require Import Base Lin LinFacts Mjx Typing Component Problem SpecComponent SpecJoint SpecHistory SpecMotion SpecConf Rot Conf FrameJac JaxComponents LocalIK Witness SpecTree SpecShape SpecValue SpecDeriv SpecQP SpecSolve SpecDescent SpecFit SpecProblem SpecDrift.
From Verif Require Import CompThms2 BindCases ConfCases ValueCases MotionFacts2 ConfFacts4 FitFacts DerivFacts DerivThms DerivThms2 DerivCases LogCases QPCases DescentFacts AwayCases SolveThms DriftCases DriftSolve CrossThms.
Open Scope R_scope.

(** The crane and the task of C127, and in addition a barrier of gain 1: the first
    coordinate of the tip, which is zero at [up], is not to become negative. *)
Definition wall_comp : comp := wall_of "min" (Some (tscalar 0)) None (Some (mvec [1; 0; 0]%Z)).
Lemma wall_new : new_position_barrier "wall" (tscalar 1) "tip" OBody (Some (tscalar 0)) None "min" None 0 (Some (mvec [1; 0; 0]%Z)) = Ok wall_comp.
Proof. reflexivity. Qed.
Definition cross_prog : list wop := [WNewProblem rail (tscalar (-10)) (tscalar 10); WNewComp (pos_comp None); WCop 0 (OpTargetPos (tvec [2; 0; 0])); WAdd 0 0; WNewComp wall_comp; WAdd 0 1].
Definition cross_pd : jdata := Eval vm_compute in result (fst (step (WCompile 0) (run cross_prog empty_world))).
Definition wall ts : jaxc := compiled [OpModel (chain ts)] wall_comp.
Definition fence : jaxc := wall [JSlide; JBall].
Lemma cross_compiled : compiled_by cross_prog 0 cross_pd /\ comps_of cross_pd = [reach; fence] /\ jd_model cross_pd = rail /\ jd_vmin cross_pd = repeat (-10) 4 /\ jd_vmax cross_pd = repeat 10 4.
Proof. split; [vm_compute; reflexivity|]. repeat split; vm_compute; reflexivity. Qed.
Lemma cross_tidy : tidy rail cross_prog.
Proof.
  split; [apply chain_sound|]. split; [repeat constructor; first [eapply made_position_task; exact (pos_comp_new None)|eapply made_position_barrier; exact wall_new]|]. split; [repeat (constructor; [first [exact I|reflexivity]|]); constructor|].
  split; [repeat constructor|]. split; [repeat (constructor; [first [exact I|reflexivity|split; [reflexivity|first [exact I|reflexivity]]]|]); constructor|].
  intros k o Hk Hb. do 6 (destruct k as [|k]; [injection Hk as <-; first [contradiction | left; eexists; vm_compute; reflexivity]|]). destruct k; discriminate.
Qed.
Lemma fence_ok : position_barrier (Some (mvec [1; 0; 0]%Z)) "tip" OBody "min" fence /\ j_model fence = rail /\ uniform 1 fence /\ j_ext fence = JBarrier 0 (JBPos 2 OBody (tvec [0]) (tvec [0]) [0%Z]) /\ j_mask_idxs fence = [0]%Z.
Proof.
  split; [|split; [reflexivity|split; [split; [vm_compute; repeat constructor|reflexivity]|split; vm_compute; reflexivity]]].
  exists "wall"%string, (tscalar 1), (Some (tscalar 0)), None, None, 0, wall_comp. split; [exact wall_new|].
  eapply compiled_is; [reflexivity|constructor; [apply chain_sound|constructor]|split; [vm_compute; reflexivity|exact I]|eexists; vm_compute; reflexivity].
Qed.
Lemma fence_value D q : call (crane D) fence (update (crane D) rail q) = Ok [vx (tip_of q) - 0].
Proof. destruct fence_ok as (_ & _ & _ & E & M). unfold call. rewrite E, M. reflexivity. Qed.
Definition slope : mat := [[24 / 25; 0; 0; 2; 0]].
Lemma fence_smooth D : smooth (crane D) fence 1 up /\ is_mat 1 5 slope /\ has_jacobian (value_at (crane D) fence) up slope.
Proof.
  assert (M : is_mat 1 5 slope) by (split; [reflexivity|repeat constructor]).
  assert (H : has_jacobian (value_at (crane D) fence) up slope).
  { intros i Hi. cbn in Hi. destruct i as [|i]; [|lia]; cbn [nth slope]; unfold value_at; change (j_model fence) with rail.
    apply grad_ext with (F := fun y => vx (tip_of y) - 0); [|intros y _; rewrite fence_value; reflexivity]. unfold tip_of, up; cbn [vx vy vz]. (eapply grad_eq; [|grad]); cbn [nth]; try lra; cbn; repeat (apply f_equal2; [field|]); reflexivity. }
  split; [|split; [exact M|exact H]]. split; [intros y _; eexists; split; [apply fence_value|reflexivity]|exists slope; split; [exact M|exact H]].
Qed.
Lemma fence_auto D : automatic fence /\ kinematic (crane D) fence.
Proof.
  destruct fence_ok as (_ & _ & _ & E & _). split; [unfold automatic; now rewrite E|]. apply kinematic_position; [intros y; repeat split|right; do 6 eexists; exact E].
Qed.
Lemma fence_rates D : sound_jac D -> exists J, jacobian (crane D) fence (update (crane D) rail up) = Ok J /\ frob2 J <> 0 /\ (forall a b c d, mv J [a; b; c; d] = [24 / 25 * a + 2 * c]) /\
  forall a b c d, derivative_at_0 (fun t => nth 0 (value_after (crane D) fence up [a; b; c; d] t) 0) (24 / 25 * a + c).
Proof.
  intros HD. destruct (fence_auto D) as [Ha Hk]. destruct crane_up as [Hw Hn]. destruct (fence_smooth D) as (Hs & HM & HJ).
  pose proof (auto_jacobian (crane D) fence 1 up slope HD Ha Hk eq_refl (proj1 Hs) HM HJ eq_refl) as A.
  unfold to_velocity in A. change (d_qpos (update (crane D) (j_model fence) up)) with up in A. change (Nat.eqb (m_nq (j_model fence)) (m_nv (j_model fence))) with false in A. cbv iota in A.
  destruct (jac_dq2v (j_model fence) up) as [E0|] eqn:EE; [|vm_compute in EE; discriminate EE]. vm_compute in EE. apply Ok_inj in EE. subst E0. cbn [bind] in A. change (is_matb _ _ _) with true in A. cbv iota in A.
  change (j_model fence) with rail in A. eexists. split; [exact A|].
  match type of A with _ = Ok ?J => assert (MV : forall a b c d, mv J [a; b; c; d] = [24 / 25 * a + 2 * c]) by (intros; cbn; repeat (apply f_equal2; [field|]); reflexivity); assert (NZ : frob2 J <> 0) by (unfold frob2; cbn; lra) end.
  split; [exact NZ|]. split; [exact MV|]. intros a b c d.
  destruct (automatic_along_motion (crane D) fence 1 up [a; b / 2; c / 2; d / 2] [a; b; c; d] HD Ha Hk Hw Hs eq_refl Hn eq_refl eq_refl (crane_twice a b c d)) as (J' & EJ' & _ & Hd). change (j_model fence) with rail in EJ'. rewrite A in EJ'. apply Ok_inj in EJ'. subst J'.
  specialize (Hd 0%nat ltac:(lia)). rewrite MV in Hd. cbn [nth] in Hd. replace (24 / 25 * a + 2 * (c / 2)) with (24 / 25 * a + c) in Hd by field. exact Hd.
Qed.
Lemma fence_now D : call (crane D) fence (update (crane D) rail up) = Ok [0].
Proof. rewrite fence_value. unfold tip_of, up. cbn. f_equal. repeat (apply f_equal2; [field|]). reflexivity. Qed.
Lemma fence_cbf D a b c d : sound_jac D -> 0 <= 24 / 25 * a + 2 * c -> cbf (crane D) (update (crane D) rail up) [a; b; c; d] fence.
Proof.
  intros HD H J e EJ Ee. destruct (fence_rates D HD) as (J' & EJ' & _ & MV & _). rewrite EJ in EJ'. apply Ok_inj in EJ'. subst J'. rewrite fence_now in Ee. apply Ok_inj in Ee. subst e.
  destruct fence_ok as (_ & _ & Hu & _). rewrite MV, (gained_uniform 1 fence _ Hu) by reflexivity. unfold vscale, vneg. cbn. constructor; [lra|constructor].
Qed.
Lemma cross_box D a b c d : sound_jac D -> -10 <= a <= 10 -> -10 <= b <= 10 -> -10 <= c <= 10 -> -10 <= d <= 10 -> 0 <= 24 / 25 * a + 2 * c -> admissible (crane D) (update (crane D) rail up) cross_pd [a; b; c; d].
Proof.
  intros HD A B C E F. destruct cross_compiled as (_ & Ec & Em & El & Eh). destruct reach_ok as (_ & _ & _ & _ & W & Ex & _). destruct fence_ok as (_ & _ & _ & Ef & _). unfold admissible. rewrite Ec, Em, El, Eh.
  split; [reflexivity|]. split; [repeat (constructor; [lra|]); constructor|]. split; [repeat (constructor; [lra|]); constructor|].
  constructor; [unfold is_barrier, is_hard; rewrite Ex; split; discriminate|]. constructor; [|constructor]. split; [intros _; now apply fence_cbf|unfold is_hard; rewrite Ef; discriminate].
Qed.
Lemma cross_best D : sound_jac D -> let d := update (crane D) rail up in best (crane D) d cross_pd [- (50 / 7); 0; 38 / 7; 0] /\
  forall v, best (crane D) d cross_pd v -> derivative_at_0 (fun t => nth 0 (value_after (crane D) fence up v t) 0) (- (10 / 7)).
Proof.
  intros HD. cbv zeta. destruct (crane_rates D HD) as (J & EJ & [LJ _] & MV & _). destruct (fence_rates D HD) as (K & EK & NK & _ & R). destruct cross_compiled as (_ & Ec & Em & _). destruct reach_ok as (_ & _ & _ & Hu & W & Ex & _ & HW). destruct fence_ok as (_ & _ & _ & Ef & _).
  assert (Gn : gained reach [-2; 0; 1] = [-4; 0; 2]). { rewrite (gained_uniform 2 reach _ Hu) by reflexivity. unfold vscale. cbn. repeat (apply f_equal2; [ring|]). reflexivity. }
  assert (LL : forall u, List.length (vadd (mv J u) [-4; 0; 2]) = 3%nat) by (intros u; rewrite vadd_length; rewrite ?mv_length; cbn; lia).
  assert (T : forall u, total_cost (crane D) (update (crane D) rail up) (comps_of cross_pd) u (1 / 2 * sq (vadd (mv J u) [-4; 0; 2]))).
  { intros u. rewrite Ec. eexists. split; [constructor; [exact (cost_task _ _ reach u W 0 _ J _ Ex EJ (reach_now D))|constructor; [exact (cost_barrier _ _ fence u 0 _ K Ef EK NK)|constructor]]|].
    rewrite Gn, (HW _ (LL u)). unfold vsum; cbn. field. exact NK. }
  set (w := [- (50 / 7); 0; 38 / 7; 0]). assert (Z : vadd (mv J w) [-4; 0; 2] = vzero 3) by (unfold w; rewrite MV; unfold vadd, vzero; cbn; repeat (apply f_equal2; [field|]); reflexivity).
  assert (Z0 : sq (vzero 3) = 0) by (unfold sq; apply dot_vzero_l). assert (Aw : admissible (crane D) (update (crane D) rail up) cross_pd w) by (apply cross_box; [exact HD|lra..]). split.
  - split; [exact Aw|]. eexists. split; [apply T|]. intros u _. eexists. split; [apply T|]. rewrite Z, Z0. pose proof (QPThms3.sq_nonneg (vadd (mv J u) [-4; 0; 2])). lra.
  - intros v (Av & x & Tx & Bx). destruct (Bx w Aw) as (y & Ty & Ly). rewrite (QPThms3.total_cost_fun _ _ _ _ _ _ Tx (T v)), (QPThms3.total_cost_fun _ _ _ _ _ _ Ty (T w)), Z, Z0 in Ly.
    assert (U : vadd (mv J v) [-4; 0; 2] = vzero 3) by (rewrite <- (LL v); apply sq_zero; lra).
    pose proof (proj1 Av) as Lv. rewrite Em in Lv. destruct (four v Lv) as (a & b & c & d & ->). rewrite MV in U. unfold vadd, vzero in U. cbn in U. injection U as U1 U2 U3.
    replace (- (10 / 7)) with (24 / 25 * a + c) by lra. apply R.
Qed.
Lemma cross_accepted D : Forall (accepted (crane D) (update (crane D) rail up)) (comps_of cross_pd).
Proof.
  destruct cross_compiled as (_ & -> & _). destruct reach_ok as (_ & _ & _ & _ & W & Ex & _). destruct fence_ok as (_ & _ & _ & Ef & _). constructor; [unfold accepted; rewrite Ex; split; [exact I|eexists; reflexivity]|]. constructor; [|constructor]. unfold accepted. rewrite Ef. split; [exact I|]. split; eexists; reflexivity.
Qed.
Lemma cross_solver D : sound_jac D -> shaped_jac D -> exact_at (crane D) (fun _ => mkSol [- (50 / 7); 0; 38 / 7; 0] [] []) rail cross_pd (update (crane D) rail up).
Proof.
  intros HD HS. destruct cross_compiled as (Hc & _). destruct (cross_best D HD) as [B _].
  exact (constant_exact (crane D) rail cross_prog 0 cross_pd _ _ cross_tidy Hc (crane_sound D HS) (crane_wf D up eq_refl) (cross_accepted D) B).
Qed.
Theorem cross_refuted D : sound_jac D -> shaped_jac D -> exists L os pd j q, l_jacrev L = D /\ let m := j_model j in tidy m os /\ compiled_by os 0 pd /\ sound_lib L m /\ In j (comps_of pd) /\ position_barrier (Some (mvec [1; 0; 0]%Z)) "tip" OBody "min" j /\ uniform 1 j /\
  List.length q = m_nq m /\ normalised m q /\ smooth L j 1 q /\ (forall y, List.length y = m_nq m -> value_at L j y = [vx (tip_of y) - 0] /\ position (update L m y) OBody 2 = v3_list (tip_of y)) /\ value_at L j q = [0] /\ may_rest L (update L m q) pd /\
  (forall v, best L (update L m q) pd v -> derivative_at_0 (fun t => nth 0 (value_after L j q v t) 0) (- (10 / 7))) /\
  forall So v0, exact_at L So m pd (update L m q) -> exists s v, solve L So m (tvec q) v0 pd = Ok (s, v) /\ derivative_at_0 (fun t => nth 0 (value_after L j q v t) 0) (- (10 / 7)).
Proof.
  intros HD HS. destruct fence_ok as (Hj & Em & Hu & Ef & _). destruct cross_compiled as (Hc & Ec & Emm & El & Eh). destruct (cross_best D HD) as [B U]. destruct (fence_smooth D) as (Hs & _). destruct reach_ok as (_ & _ & _ & _ & W & Ex & _).
  exists (crane D), cross_prog, cross_pd, fence, up. rewrite Em. split; [reflexivity|]. cbv zeta. split; [exact cross_tidy|]. split; [exact Hc|]. split; [now apply crane_sound|]. split; [rewrite Ec; right; now left|]. split; [exact Hj|]. split; [exact Hu|].
  split; [reflexivity|]. split; [apply crane_up|]. split; [exact Hs|]. split; [intros y _; split; [unfold value_at; rewrite Em, fence_value; reflexivity|reflexivity]|]. split; [unfold value_at; rewrite Em, fence_now; reflexivity|].
  split; [|split; [exact U|]].
  - unfold may_rest. rewrite Ec, Emm, El, Eh. split; [repeat (constructor; [lra|]); constructor|]. split; [repeat (constructor; [lra|]); constructor|].
    constructor; [unfold calm, is_barrier, is_hard; rewrite Ex; split; discriminate|]. constructor; [|constructor]. split; [intros _|unfold is_hard; rewrite Ef; discriminate].
    split; [destruct Hu as [F _]; apply Forall_forall; intros x Hx; rewrite Forall_forall in F; rewrite <- (F x Hx); lra|]. split; [intros x Hx; rewrite (proj2 Hu); exact Hx|]. intros e Ee. rewrite fence_now in Ee. apply Ok_inj in Ee. subst e. constructor; [lra|constructor].
  - intros So v0 X. destruct (program_best (crane D) rail cross_prog 0 cross_pd cross_tidy Hc (crane_sound D HS) So (tvec up) v0 eq_refl (crane_wf D up eq_refl) (cross_accepted D) X) as [(s & v & E & Bv)|(_ & j & J & Hj' & Bj & EJ & Z)]; [eexists; exact (proj1 B)|exists s, v; split; [exact E|now apply U]|].
    exfalso. rewrite Ec in Hj'. destruct Hj' as [<-|[<-|[]]]; [unfold is_barrier in Bj; rewrite Ex in Bj; discriminate|]. destruct (fence_rates D HD) as (K & EK & NK & _). cbn [tvec t_data] in EJ. rewrite EK in EJ. apply Ok_inj in EJ. subst J. contradiction.
Qed.

(** ** One joint: the second coordinate of the body of the crank and of the stick is not to become negative *)
Definition side_comp : comp := wall_of "min" (Some (tscalar 0)) None (Some (mvec [0; 1; 0]%Z)).
Lemma side_new : new_position_barrier "wall" (tscalar 1) "tip" OBody (Some (tscalar 0)) None "min" None 0 (Some (mvec [0; 1; 0]%Z)) = Ok side_comp.
Proof. reflexivity. Qed.
Definition side_prog t0 : list wop := [WNewProblem (chain [t0]) (tscalar (-10)) (tscalar 10); WNewComp side_comp; WAdd 0 0].
Definition side_pd t0 : jdata := result (fst (step (WCompile 0) (run (side_prog t0) empty_world))).
Definition side t0 : jaxc := compiled [OpModel (chain [t0])] side_comp.
Lemma side_ext t0 : j_model (side t0) = chain [t0] /\ j_ext (side t0) = JBarrier 0 (JBPos 1 OBody (tvec [0]) (tvec [0]) [0%Z]) /\ j_mask_idxs (side t0) = [1]%Z /\ uniform 1 (side t0).
Proof. split; [reflexivity|]. split; [vm_compute; reflexivity|]. split; [reflexivity|]. split; [vm_compute; repeat constructor|reflexivity]. Qed.
Lemma side_value D pos rot anchor t0 q : call (rig D pos rot anchor) (side t0) (update (rig D pos rot anchor) (chain [t0]) q) = Ok [vy (pos q) - 0].
Proof. destruct (side_ext t0) as (_ & E & M & _). unfold call. rewrite E, M. reflexivity. Qed.
Lemma side_auto D pos rot anchor t0 : automatic (side t0) /\ kinematic (rig D pos rot anchor) (side t0).
Proof.
  destruct (side_ext t0) as (_ & E & _). split; [unfold automatic; now rewrite E|]. apply kinematic_position; [apply rig_positions|right; do 6 eexists; exact E].
Qed.
Lemma side_smooth D pos rot anchor t0 q g : List.length g = m_nq (chain [t0]) -> has_gradient (fun y => vy (pos y)) q g -> is_mat 1 (m_nq (chain [t0])) [g] /\ has_jacobian (value_at (rig D pos rot anchor) (side t0)) q [g].
Proof.
  intros Lg G. split; [split; [reflexivity|repeat constructor; exact Lg]|].
  intros i Hi. cbn in Hi. destruct i as [|i]; [|lia]. cbn [nth]. unfold value_at. change (j_model (side t0)) with (chain [t0]).
  apply grad_ext with (F := fun y => vy (pos y)); [exact G|]. intros y _. rewrite side_value. cbn [nth]. ring.
Qed.
Lemma side_is_smooth D pos rot anchor t0 q g : List.length g = m_nq (chain [t0]) -> has_gradient (fun y => vy (pos y)) q g -> smooth (rig D pos rot anchor) (side t0) 1 q.
Proof. intros Lg G. split; [intros y _; eexists; split; [apply side_value|reflexivity]|]. exists [g]. now apply side_smooth. Qed.
Lemma circle_slope : has_gradient (fun y => vy (circle y)) [0] [1].
Proof. unfold circle; cbn [vx vy vz]. (eapply grad_eq; [|grad]); cbn; rewrite ?cos_0; repeat (apply f_equal2; [field|]); reflexivity. Qed.
Lemma sphere_slope : has_gradient (fun y => vy (sphere y)) [1; 0; 0; 0] [0; 0; 0; 2].
Proof. unfold sphere; cbn [vx vy vz]. (eapply grad_eq; [|grad]); cbn [nth]; try lra; cbn; repeat (apply f_equal2; [field|]); reflexivity. Qed.
Lemma hinge_side D : sound_jac D -> let L := crank D in let j := side JHinge in let m := j_model j in let pd := side_pd JHinge in
  compiled_by (side_prog JHinge) 0 pd /\ automatic j /\ kinematic L j /\ wf_joints m /\ smooth L j 1 [0] /\ In j (comps_of pd) /\ jd_model pd = m /\ is_barrier j = true /\ j_gain_fn j 0 = 0 /\ admissible L (update L m [0]) pd [1] /\
  m_nq m = m_nv m /\ keeps_scalars L m /\ nth 0 (value_at L j [0]) 0 = 0.
Proof.
  intros HD. cbv zeta. destruct (side_ext JHinge) as (Em & Ex & _ & Hu). rewrite Em. destruct (side_auto D circle (fun q => turn_z (nth 0 q 0)) v3_zero JHinge) as [Ha Hk].
  assert (Hs : smooth (crank D) (side JHinge) 1 [0]) by exact (side_is_smooth D circle _ v3_zero JHinge [0] [1] eq_refl circle_slope).
  assert (EV : call (crank D) (side JHinge) (update (crank D) (chain [JHinge]) [0]) = Ok [0]) by (etransitivity; [exact (side_value D circle (fun q => turn_z (nth 0 q 0)) v3_zero JHinge [0])|]; unfold circle; cbn; rewrite sin_0; do 2 f_equal; ring).
  destruct (side_smooth D circle (fun q => turn_z (nth 0 q 0)) v3_zero JHinge [0] [1] eq_refl circle_slope) as [HM HJ].
  pose proof (auto_jacobian (crank D) (side JHinge) 1 [0] [[1]] HD Ha Hk eq_refl (proj1 Hs) HM HJ eq_refl) as A. rewrite Em in A. unfold to_velocity in A. change (Nat.eqb (m_nq (chain [JHinge])) (m_nv (chain [JHinge]))) with true in A. cbv iota in A.
  split; [vm_compute; reflexivity|]. split; [exact Ha|]. split; [exact Hk|]. split; [apply sound_wf, chain_sound|]. split; [exact Hs|]. split; [left; vm_compute; reflexivity|]. split; [reflexivity|]. split; [reflexivity|]. split; [reflexivity|].
  split; [|split; [reflexivity|split; [apply rig_scalars|unfold value_at; rewrite Em, EV; reflexivity]]].
  split; [reflexivity|]. split; [repeat (constructor; [cbn; lra|]); constructor|]. split; [repeat (constructor; [cbn; lra|]); constructor|]. replace (comps_of (side_pd JHinge)) with [side JHinge] by (vm_compute; reflexivity). constructor; [|constructor]. split; [intros _ J e EJ Ee|discriminate].
  rewrite A in EJ. apply Ok_inj in EJ. subst J. rewrite EV in Ee. apply Ok_inj in Ee. subst e. rewrite (gained_uniform 1 (side JHinge) _ Hu) by reflexivity. unfold vscale, vneg, mv, dot. cbn. constructor; [lra|constructor].
Qed.
Lemma ball_side D : sound_jac D -> let L := joystick D in let j := side JBall in let m := j_model j in let pd := side_pd JBall in let q := [1; 0; 0; 0] in
  compiled_by (side_prog JBall) 0 pd /\ automatic j /\ kinematic L j /\ wf_joints m /\ smooth L j 1 q /\ In j (comps_of pd) /\ jd_model pd = m /\ is_barrier j = true /\ j_gain_fn j 0 = 0 /\ admissible L (update L m q) pd [0; 0; 1] /\
  normalised m q /\ d_qpos (update L m q) = q /\ only_turns m [0; 0; 1] /\ nth 0 (value_at L j q) 0 = 0.
Proof.
  intros HD. cbv zeta. destruct (side_ext JBall) as (Em & Ex & _ & Hu). rewrite Em. set (rot := fun q => q_mat (mkQ (nth 0 q 0) (nth 1 q 0) (nth 2 q 0) (nth 3 q 0))). destruct (side_auto D sphere rot v3_zero JBall) as [Ha Hk]. destruct ball_joint as (Hw & Hn & Ho).
  assert (Hs : smooth (joystick D) (side JBall) 1 [1; 0; 0; 0]) by exact (side_is_smooth D sphere _ v3_zero JBall _ [0; 0; 0; 2] eq_refl sphere_slope).
  assert (EV : call (joystick D) (side JBall) (update (joystick D) (chain [JBall]) [1; 0; 0; 0]) = Ok [0]) by (etransitivity; [exact (side_value D sphere rot v3_zero JBall _)|]; unfold sphere; cbn; do 2 f_equal; field).
  destruct (side_smooth D sphere rot v3_zero JBall [1; 0; 0; 0] [0; 0; 0; 2] eq_refl sphere_slope) as [HM HJ].
  pose proof (auto_jacobian (joystick D) (side JBall) 1 [1; 0; 0; 0] _ HD Ha Hk eq_refl (proj1 Hs) HM HJ eq_refl) as A. rewrite Em in A. unfold to_velocity in A.
  change (d_qpos (update (joystick D) (chain [JBall]) [1; 0; 0; 0])) with [1; 0; 0; 0] in A. change (Nat.eqb (m_nq (chain [JBall])) (m_nv (chain [JBall]))) with false in A. cbv iota in A.
  destruct (jac_dq2v (chain [JBall]) [1; 0; 0; 0]) as [E0|] eqn:EE; [|vm_compute in EE; discriminate]. vm_compute in EE. apply Ok_inj in EE. subst E0. cbn [bind] in A. change (is_matb _ _ _) with true in A. cbv iota in A.
  split; [vm_compute; reflexivity|]. split; [exact Ha|]. split; [exact Hk|]. split; [exact Hw|]. split; [exact Hs|]. split; [left; vm_compute; reflexivity|]. split; [reflexivity|]. split; [reflexivity|]. split; [reflexivity|].
  split; [|split; [exact Hn|split; [reflexivity|split; [exact Ho|unfold value_at; rewrite Em, EV; reflexivity]]]].
  split; [reflexivity|]. split; [repeat (constructor; [cbn; lra|]); constructor|]. split; [repeat (constructor; [cbn; lra|]); constructor|]. replace (comps_of (side_pd JBall)) with [side JBall] by (vm_compute; reflexivity). constructor; [|constructor]. split; [intros _ J e EJ Ee|discriminate].
  rewrite A in EJ. apply Ok_inj in EJ. subst J. rewrite EV in Ee. apply Ok_inj in Ee. subst e. rewrite (gained_uniform 1 (side JBall) _ Hu) by reflexivity. unfold vscale, vneg. cbn. constructor; [lra|constructor].
Qed.
Lemma side_tidy : tidy (chain [JHinge]) (side_prog JHinge).
Proof.
  split; [apply chain_sound|]. split; [repeat constructor; eapply made_position_barrier; exact side_new|]. split; [repeat (constructor; [first [exact I|reflexivity]|]); constructor|].
  split; [repeat constructor|]. split; [repeat (constructor; [first [exact I|reflexivity|split; [reflexivity|first [exact I|reflexivity]]]|]); constructor|].
  intros k o Hk Hb. do 3 (destruct k as [|k]; [injection Hk as <-; first [contradiction | left; eexists; vm_compute; reflexivity]|]). destruct k; discriminate.
Qed.
Lemma side_solver D : sound_jac D -> shaped_jac D -> let L := crank D in let m := chain [JHinge] in let pd := side_pd JHinge in let d := update L m [0] in let So := fun _ => mkSol [1] [] [] in
  tidy m (side_prog JHinge) /\ compiled_by (side_prog JHinge) 0 pd /\ sound_lib L m /\ wf_data m d /\ Forall (accepted L d) (comps_of pd) /\ exact_at L So m pd d /\ (exists w, admissible L d pd w) /\
  solve L So m (tvec [0]) [] pd = Ok (mkSol [1] [] [], [1]).
Proof.
  intros HD HS. cbv zeta. destruct (hinge_side D HD) as (Hc & Ha & Hk & _ & Hs & _ & _ & _ & _ & Av & _). destruct (side_ext JHinge) as (Em & Ex & _ & Hu). rewrite Em in Av.
  assert (Ec : comps_of (side_pd JHinge) = [side JHinge]) by (vm_compute; reflexivity).
  assert (HL : sound_lib (crank D) (chain [JHinge])) by now apply rig_sound. assert (Hd : wf_data (chain [JHinge]) (update (crank D) (chain [JHinge]) [0])) by exact (rig_wf D circle _ _ JHinge [0] eq_refl).
  assert (Hacc : Forall (accepted (crank D) (update (crank D) (chain [JHinge]) [0])) (comps_of (side_pd JHinge))) by (rewrite Ec; constructor; [|constructor]; unfold accepted; rewrite Ex; split; [exact I|]; split; eexists; reflexivity).
  destruct (side_smooth D circle (fun q => turn_z (nth 0 q 0)) v3_zero JHinge [0] [1] eq_refl circle_slope) as [HM HJ].
  pose proof (auto_jacobian (crank D) (side JHinge) 1 [0] [[1]] HD Ha Hk eq_refl (proj1 Hs) HM HJ eq_refl) as A. rewrite Em in A. unfold to_velocity in A. change (Nat.eqb (m_nq (chain [JHinge])) (m_nv (chain [JHinge]))) with true in A. cbv iota in A.
  assert (NZ : frob2 [[1]] <> 0) by (unfold frob2; cbn; lra).
  assert (T : forall u, total_cost (crank D) (update (crank D) (chain [JHinge]) [0]) (comps_of (side_pd JHinge)) u 0).
  { intros u. rewrite Ec. eexists. split; [constructor; [exact (cost_barrier _ _ (side JHinge) u 0 _ _ Ex A NZ)|constructor]|]. unfold vsum; cbn. unfold Rdiv. ring. }
  assert (B : best (crank D) (update (crank D) (chain [JHinge]) [0]) (side_pd JHinge) [1]) by (split; [exact Av|]; exists 0; split; [apply T|]; intros u _; exists 0; split; [apply T|lra]).
  assert (X : exact_at (crank D) (fun _ => mkSol [1] [] []) (chain [JHinge]) (side_pd JHinge) (update (crank D) (chain [JHinge]) [0])) by exact (constant_exact _ _ _ 0 _ _ _ side_tidy Hc HL Hd Hacc B).
  split; [exact side_tidy|]. split; [exact Hc|]. split; [exact HL|]. split; [exact Hd|]. split; [exact Hacc|]. split; [exact X|]. split; [eexists; exact Av|].
  destruct (program_best (crank D) (chain [JHinge]) (side_prog JHinge) 0 (side_pd JHinge) side_tidy Hc HL (fun _ => mkSol [1] [] []) (tvec [0]) [] eq_refl Hd Hacc X) as [(s & v & E & _)|(_ & j & J & Hj & _ & EJ & Z)]; [eexists; exact Av| |exfalso; rewrite Ec in Hj; destruct Hj as [<-|[]]; cbn [tvec t_data] in EJ; rewrite A in EJ; apply Ok_inj in EJ; subst J; contradiction].
  rewrite E. f_equal. change (solve_from_data (crank D) (fun _ => mkSol [1] [] []) (chain [JHinge]) [] (side_pd JHinge) (update (crank D) (chain [JHinge]) [0]) = Ok (s, v)) in E.
  unfold solve_from_data in E. destruct (assemble (crank D) (chain [JHinge]) (side_pd JHinge) (update (crank D) (chain [JHinge]) [0])) as [Q|e]; [|discriminate E]. cbn [bind sol_primal] in E. injection E as <- <-. reflexivity.
Qed.
