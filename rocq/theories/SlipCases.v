(** C129: a crane on which a hard constraint does not hold what it holds. *)
From Coq Require Import Lia.
From Verif Require Import Base Lin LinFacts Mjx Typing Component Problem SpecComponent SpecJoint SpecHistory SpecMotion SpecConf Rot Conf FrameJac JaxComponents LocalIK Witness SpecTree SpecShape SpecValue SpecDeriv SpecQP SpecSolve SpecDescent SpecFit SpecProblem SpecDrift.
From Verif Require Import CompThms2 BindCases ConfCases ValueCases MotionFacts2 ConfFacts4 FitFacts DerivFacts DerivThms DerivThms2 DerivCases LogCases QPCases DescentFacts AwayCases SolveThms DriftCases DriftSolve SlipThms.
Open Scope R_scope.

(** The crane and the task of C127, and in addition a hard custom constraint of gain 1: the
    first coordinate of the tip, which is zero at [up], is to be zero. *)
Definition first_of (i : nat) (d : mjdata) : list R := [nth 0 (nth i (d_xpos d) []) 0].
Definition rein_comp (i : nat) : comp := unwrap (new_custom_constraint "rein" (tscalar 1) None true None 1 (first_of i)) (pos_comp None).
Lemma rein_new i : new_custom_constraint "rein" (tscalar 1) None true None 1 (first_of i) = Ok (rein_comp i).
Proof. reflexivity. Qed.
Definition slip_prog : list wop := [WNewProblem rail (tscalar (-10)) (tscalar 10); WNewComp (pos_comp None); WCop 0 (OpTargetPos (tvec [2; 0; 0])); WAdd 0 0; WNewComp (rein_comp 2); WAdd 0 1].
Definition slip_pd : jdata := Eval vm_compute in result (fst (step (WCompile 0) (run slip_prog empty_world))).
Definition rein i ts : jaxc := compiled [OpModel (chain ts)] (rein_comp i).
Definition tie : jaxc := rein 2 [JSlide; JBall].
Lemma slip_compiled : compiled_by slip_prog 0 slip_pd /\ comps_of slip_pd = [reach; tie] /\ jd_model slip_pd = rail /\ jd_vmin slip_pd = repeat (-10) 4 /\ jd_vmax slip_pd = repeat 10 4.
Proof. split; [vm_compute; reflexivity|]. repeat split; vm_compute; reflexivity. Qed.
Lemma slip_tidy : tidy rail slip_prog.
Proof.
  split; [apply chain_sound|]. split; [repeat constructor; first [eapply made_position_task; exact (pos_comp_new None)|eapply made_custom_constraint; exact (rein_new 2)]|]. split; [repeat (constructor; [first [exact I|reflexivity]|]); constructor|].
  split; [repeat constructor|]. split; [repeat (constructor; [first [exact I|reflexivity|split; [reflexivity|first [exact I|reflexivity]]]|]); constructor|].
  intros k o Hk Hb. do 6 (destruct k as [|k]; [injection Hk as <-; first [contradiction | left; eexists; vm_compute; reflexivity]|]). destruct k; discriminate.
Qed.
Lemma tie_ok : j_model tie = rail /\ uniform 1 tie /\ j_dim tie = 1%Z /\ exists W, j_ext tie = JConstraint true true W (JCCustom (first_of 2)).
Proof. split; [reflexivity|]. split; [split; [vm_compute; repeat constructor|reflexivity]|]. split; [reflexivity|]. eexists. vm_compute. reflexivity. Qed.
Lemma tie_value D q : call (crane D) tie (update (crane D) rail q) = Ok [vx (tip_of q)].
Proof. destruct tie_ok as (_ & _ & _ & W & E). unfold call. rewrite E. reflexivity. Qed.
Definition tie_slope : mat := [[24 / 25; 0; 0; 2; 0]].
Lemma tie_smooth D : smooth (crane D) tie 1 up /\ is_mat 1 5 tie_slope /\ has_jacobian (value_at (crane D) tie) up tie_slope.
Proof.
  assert (M : is_mat 1 5 tie_slope) by (split; [reflexivity|repeat constructor]).
  assert (H : has_jacobian (value_at (crane D) tie) up tie_slope).
  { intros i Hi. cbn in Hi. destruct i as [|i]; [|lia]; cbn [nth tie_slope]; unfold value_at; change (j_model tie) with rail.
    apply grad_ext with (F := fun y => vx (tip_of y)); [|intros y _; rewrite tie_value; reflexivity]. unfold tip_of, up; cbn [vx vy vz]. (eapply grad_eq; [|grad]); cbn [nth]; try lra; cbn; repeat (apply f_equal2; [field|]); reflexivity. }
  split; [|split; [exact M|exact H]]. split; [intros y _; eexists; split; [apply tie_value|reflexivity]|exists tie_slope; split; [exact M|exact H]].
Qed.
Lemma tie_auto D : automatic tie /\ kinematic (crane D) tie.
Proof. destruct tie_ok as (_ & _ & _ & W & E). split; [unfold automatic; now rewrite E|]. intros y Hy. rewrite E. unfold call. rewrite E. reflexivity. Qed.
Lemma tie_rates D : sound_jac D -> exists J, jacobian (crane D) tie (update (crane D) rail up) = Ok J /\ (forall a b c d, mv J [a; b; c; d] = [24 / 25 * a + 2 * c]) /\
  forall a b c d, derivative_at_0 (fun t => nth 0 (value_after (crane D) tie up [a; b; c; d] t) 0) (24 / 25 * a + c).
Proof.
  intros HD. destruct (tie_auto D) as [Ha Hk]. destruct crane_up as [Hw Hn]. destruct (tie_smooth D) as (Hs & HM & HJ).
  pose proof (auto_jacobian (crane D) tie 1 up tie_slope HD Ha Hk eq_refl (proj1 Hs) HM HJ eq_refl) as A.
  unfold to_velocity in A. change (d_qpos (update (crane D) (j_model tie) up)) with up in A. change (Nat.eqb (m_nq (j_model tie)) (m_nv (j_model tie))) with false in A. cbv iota in A.
  destruct (jac_dq2v (j_model tie) up) as [E0|] eqn:EE; [|vm_compute in EE; discriminate EE]. vm_compute in EE. apply Ok_inj in EE. subst E0. cbn [bind] in A. change (is_matb _ _ _) with true in A. cbv iota in A.
  change (j_model tie) with rail in A. eexists. split; [exact A|].
  match type of A with _ = Ok ?J => assert (MV : forall a b c d, mv J [a; b; c; d] = [24 / 25 * a + 2 * c]) by (intros; cbn; repeat (apply f_equal2; [field|]); reflexivity) end.
  split; [exact MV|]. intros a b c d.
  destruct (automatic_along_motion (crane D) tie 1 up [a; b / 2; c / 2; d / 2] [a; b; c; d] HD Ha Hk Hw Hs eq_refl Hn eq_refl eq_refl (crane_twice a b c d)) as (J' & EJ' & _ & Hd). change (j_model tie) with rail in EJ'. rewrite A in EJ'. apply Ok_inj in EJ'. subst J'.
  specialize (Hd 0%nat ltac:(lia)). rewrite MV in Hd. cbn [nth] in Hd. replace (24 / 25 * a + 2 * (c / 2)) with (24 / 25 * a + c) in Hd by field. exact Hd.
Qed.
Lemma tie_now D : call (crane D) tie (update (crane D) rail up) = Ok [0].
Proof. rewrite tie_value. unfold tip_of, up. cbn. f_equal. repeat (apply f_equal2; [field|]). reflexivity. Qed.
Lemma tie_holds D a b c d : sound_jac D -> holds_exactly (crane D) (update (crane D) rail up) [a; b; c; d] tie <-> 24 / 25 * a + 2 * c = 0.
Proof.
  intros HD. destruct (tie_rates D HD) as (J' & EJ' & MV & _). destruct tie_ok as (_ & Hu & _).
  assert (G : vneg (gained tie [0]) = [0]) by (rewrite (gained_uniform 1 tie _ Hu) by reflexivity; unfold vscale, vneg; cbn; f_equal; ring). split.
  - intros H. specialize (H _ _ EJ' (tie_now D)). rewrite MV, G in H. now injection H.
  - intros H J e EJ Ee. rewrite EJ' in EJ. apply Ok_inj in EJ. subst J. rewrite tie_now in Ee. apply Ok_inj in Ee. subst e. now rewrite MV, G, H.
Qed.
Lemma slip_box D a b c d : sound_jac D -> -10 <= a <= 10 -> -10 <= b <= 10 -> -10 <= c <= 10 -> -10 <= d <= 10 -> 24 / 25 * a + 2 * c = 0 -> admissible (crane D) (update (crane D) rail up) slip_pd [a; b; c; d].
Proof.
  intros HD A B C E F. destruct slip_compiled as (_ & Ec & Em & El & Eh). destruct reach_ok as (_ & _ & _ & _ & W & Ex & _). destruct tie_ok as (_ & _ & _ & W' & Ef). unfold admissible. rewrite Ec, Em, El, Eh.
  split; [reflexivity|]. split; [repeat (constructor; [lra|]); constructor|]. split; [repeat (constructor; [lra|]); constructor|].
  constructor; [unfold is_barrier, is_hard; rewrite Ex; split; discriminate|]. constructor; [|constructor]. split; [unfold is_barrier; rewrite Ef; discriminate|intros _; now apply tie_holds].
Qed.
Lemma slip_best D : sound_jac D -> let d := update (crane D) rail up in best (crane D) d slip_pd [- (50 / 7); 0; 24 / 7; 0] /\
  forall v, best (crane D) d slip_pd v -> derivative_at_0 (fun t => nth 0 (value_after (crane D) tie up v t) 0) (- (24 / 7)).
Proof.
  intros HD. cbv zeta. destruct (crane_rates D HD) as (J & EJ & [LJ _] & MV & _). destruct (tie_rates D HD) as (K & EK & _ & R). destruct slip_compiled as (_ & Ec & Em & _). destruct reach_ok as (_ & _ & _ & Hu & W & Ex & _ & HW). destruct tie_ok as (_ & _ & _ & W' & Ef).
  assert (Gn : gained reach [-2; 0; 1] = [-4; 0; 2]). { rewrite (gained_uniform 2 reach _ Hu) by reflexivity. unfold vscale. cbn. repeat (apply f_equal2; [ring|]). reflexivity. }
  assert (T : forall a b c d, 24 / 25 * a + 2 * c = 0 -> total_cost (crane D) (update (crane D) rail up) (comps_of slip_pd) [a; b; c; d] (8 + 2 * (b * b) + 1 / 2 * ((7 / 25 * a + 2) * (7 / 25 * a + 2)))).
  { intros a b c d H. rewrite Ec. eexists. split; [constructor; [exact (cost_task _ _ reach _ W 0 _ J _ Ex EJ (reach_now D))|constructor; [exact (cost_hard _ _ tie _ _ _ _ Ef)|constructor]]|].
    rewrite Gn, MV, H. rewrite !HW by reflexivity. unfold vsum, sq, dot. cbn. field. }
  assert (Sh : forall v, admissible (crane D) (update (crane D) rail up) slip_pd v -> exists a b c d, v = [a; b; c; d] /\ 24 / 25 * a + 2 * c = 0).
  { intros v Av. pose proof (proj1 Av) as Lv. rewrite Em in Lv. destruct (four v Lv) as (a & b & c & d & ->). exists a, b, c, d. split; [reflexivity|]. destruct Av as (_ & _ & _ & F). rewrite Ec in F. inversion F as [|? ? _ F2]; subst. inversion F2 as [|? ? [_ H] _]; subst.
    apply (tie_holds D a b c d HD), H. unfold is_hard. now rewrite Ef. }
  assert (Aw : admissible (crane D) (update (crane D) rail up) slip_pd [- (50 / 7); 0; 24 / 7; 0]) by (apply slip_box; [exact HD|lra..]). split.
  - split; [exact Aw|]. eexists. split; [apply T; lra|]. intros u Au. destruct (Sh u Au) as (a & b & c & d & -> & H). eexists. split; [now apply T|]. pose proof (Rle_0_sqr b) as P1. pose proof (Rle_0_sqr (7 / 25 * a + 2)) as P2. unfold Rsqr in *. lra.
  - intros v (Av & x & Tx & Bx). destruct (Bx _ Aw) as (y & Ty & Ly). destruct (Sh v Av) as (a & b & c & d & -> & H).
    rewrite (QPThms3.total_cost_fun _ _ _ _ _ _ Tx (T a b c d H)), (QPThms3.total_cost_fun _ _ _ _ _ _ Ty (T (- (50 / 7)) 0 (24 / 7) 0 ltac:(lra))) in Ly.
    assert (7 / 25 * a + 2 = 0) by nra. replace (- (24 / 7)) with (24 / 25 * a + c) by lra. apply R.
Qed.
Lemma slip_accepted D : Forall (accepted (crane D) (update (crane D) rail up)) (comps_of slip_pd).
Proof.
  destruct slip_compiled as (_ & -> & _). destruct reach_ok as (_ & _ & _ & _ & W & Ex & _). destruct tie_ok as (_ & _ & Ed & W' & Ef). constructor; [unfold accepted; rewrite Ex; split; [exact I|eexists; reflexivity]|]. constructor; [|constructor]. unfold accepted. rewrite Ef. intros d _. exact Ed.
Qed.
Lemma slip_solver D : sound_jac D -> shaped_jac D -> exact_at (crane D) (fun _ => mkSol [- (50 / 7); 0; 24 / 7; 0] [] []) rail slip_pd (update (crane D) rail up).
Proof.
  intros HD HS. destruct slip_compiled as (Hc & _). destruct (slip_best D HD) as [B _].
  exact (constant_exact (crane D) rail slip_prog 0 slip_pd _ _ slip_tidy Hc (crane_sound D HS) (crane_wf D up eq_refl) (slip_accepted D) B).
Qed.
Theorem slip_refuted D : sound_jac D -> shaped_jac D -> exists L os pd j q W f, l_jacrev L = D /\ let m := j_model j in tidy m os /\ compiled_by os 0 pd /\ sound_lib L m /\ In j (comps_of pd) /\ j_ext j = JConstraint true true W (JCCustom f) /\ uniform 1 j /\
  List.length q = m_nq m /\ normalised m q /\ smooth L j 1 q /\ (forall y, List.length y = m_nq m -> value_at L j y = [vx (tip_of y)] /\ position (update L m y) OBody 2 = v3_list (tip_of y)) /\ value_at L j q = [0] /\ may_rest L (update L m q) pd /\
  (forall v, best L (update L m q) pd v -> derivative_at_0 (fun t => nth 0 (value_after L j q v t) 0) (- (24 / 7))) /\
  forall So v0, exact_at L So m pd (update L m q) -> exists s v, solve L So m (tvec q) v0 pd = Ok (s, v) /\ derivative_at_0 (fun t => nth 0 (value_after L j q v t) 0) (- (24 / 7)).
Proof.
  intros HD HS. destruct tie_ok as (Em & Hu & _ & W' & Ef). destruct slip_compiled as (Hc & Ec & Emm & El & Eh). destruct (slip_best D HD) as [B U]. destruct (tie_smooth D) as (Hs & _). destruct reach_ok as (_ & _ & _ & _ & W & Ex & _).
  exists (crane D), slip_prog, slip_pd, tie, up, W', (first_of 2). rewrite Em. split; [reflexivity|]. cbv zeta. split; [exact slip_tidy|]. split; [exact Hc|]. split; [now apply crane_sound|]. split; [rewrite Ec; right; now left|]. split; [exact Ef|]. split; [exact Hu|].
  split; [reflexivity|]. split; [apply crane_up|]. split; [exact Hs|]. split; [intros y _; split; [unfold value_at; rewrite Em, tie_value; reflexivity|reflexivity]|]. split; [unfold value_at; rewrite Em, tie_now; reflexivity|].
  split; [|split; [exact U|]].
  - unfold may_rest. rewrite Ec, Emm, El, Eh. split; [repeat (constructor; [lra|]); constructor|]. split; [repeat (constructor; [lra|]); constructor|].
    constructor; [unfold calm, is_barrier, is_hard; rewrite Ex; split; discriminate|]. constructor; [|constructor]. split; [unfold is_barrier; rewrite Ef; discriminate|]. intros _. split; [apply (proj2 Hu)|]. intros e Ee. rewrite tie_now in Ee. apply Ok_inj in Ee. subst e. reflexivity.
  - intros So v0 X. destruct (program_best (crane D) rail slip_prog 0 slip_pd slip_tidy Hc (crane_sound D HS) So (tvec up) v0 eq_refl (crane_wf D up eq_refl) (slip_accepted D) X) as [(s & v & E & Bv)|(_ & j & J & Hj' & Bj & EJ & Z)]; [eexists; exact (proj1 B)|exists s, v; split; [exact E|now apply U]|].
    exfalso. rewrite Ec in Hj'. unfold is_barrier in Bj. destruct Hj' as [<-|[<-|[]]]; [rewrite Ex in Bj|rewrite Ef in Bj]; discriminate.
Qed.

(** ** One joint: the first coordinate of the body of the crank and of the stick is to be one *)
Definition reach_of (d : mjdata) : list R := [nth 0 (nth 1 (d_xpos d) []) 0 - 1].
Definition rod_comp : comp := unwrap (new_custom_constraint "rod" (tscalar 1) None true None 1 reach_of) (pos_comp None).
Lemma rod_new : new_custom_constraint "rod" (tscalar 1) None true None 1 reach_of = Ok rod_comp.
Proof. reflexivity. Qed.
Definition rod_prog t0 : list wop := [WNewProblem (chain [t0]) (tscalar (-10)) (tscalar 10); WNewComp rod_comp; WAdd 0 0].
Definition rod_pd t0 : jdata := result (fst (step (WCompile 0) (run (rod_prog t0) empty_world))).
Definition rod t0 : jaxc := compiled [OpModel (chain [t0])] rod_comp.
Lemma rod_ext t0 : j_model (rod t0) = chain [t0] /\ uniform 1 (rod t0) /\ j_dim (rod t0) = 1%Z /\ exists W, j_ext (rod t0) = JConstraint true true W (JCCustom reach_of).
Proof. split; [reflexivity|]. split; [split; [vm_compute; repeat constructor|reflexivity]|]. split; [reflexivity|]. eexists. vm_compute. reflexivity. Qed.
Lemma rod_value D pos rot anchor t0 q : call (rig D pos rot anchor) (rod t0) (update (rig D pos rot anchor) (chain [t0]) q) = Ok [vx (pos q) - 1].
Proof. destruct (rod_ext t0) as (_ & _ & _ & W & E). unfold call. rewrite E. reflexivity. Qed.
Lemma rod_auto D pos rot anchor t0 : automatic (rod t0) /\ kinematic (rig D pos rot anchor) (rod t0).
Proof. destruct (rod_ext t0) as (_ & _ & _ & W & E). split; [unfold automatic; now rewrite E|]. intros y Hy. rewrite E. unfold call. rewrite E. reflexivity. Qed.
Lemma rod_smooth D pos rot anchor t0 q g : List.length g = m_nq (chain [t0]) -> has_gradient (fun y => vx (pos y) - 1) q g ->
  smooth (rig D pos rot anchor) (rod t0) 1 q /\ is_mat 1 (m_nq (chain [t0])) [g] /\ has_jacobian (value_at (rig D pos rot anchor) (rod t0)) q [g].
Proof.
  intros Lg G. assert (M : is_mat 1 (m_nq (chain [t0])) [g]) by (split; [reflexivity|repeat constructor; exact Lg]).
  assert (H : has_jacobian (value_at (rig D pos rot anchor) (rod t0)) q [g]).
  { intros i Hi. cbn in Hi. destruct i as [|i]; [|lia]. cbn [nth]. unfold value_at. change (j_model (rod t0)) with (chain [t0]). apply grad_ext with (F := fun y => vx (pos y) - 1); [exact G|]. intros y _. rewrite rod_value. reflexivity. }
  split; [|split; [exact M|exact H]]. split; [intros y _; eexists; split; [apply rod_value|reflexivity]|]. exists [g]. split; [exact M|exact H].
Qed.
Lemma circle_flat : has_gradient (fun y => vx (circle y) - 1) [0] [0].
Proof. unfold circle; cbn [vx vy vz]. (eapply grad_eq; [|grad]); cbn; rewrite ?sin_0; repeat (apply f_equal2; [field|]); reflexivity. Qed.
Lemma sphere_flat : has_gradient (fun y => vx (sphere y) - 1) [1; 0; 0; 0] [0; 0; 0; 0].
Proof. unfold sphere; cbn [vx vy vz]. (eapply grad_eq; [|grad]); cbn [nth]; try lra; cbn; repeat (apply f_equal2; [field|]); reflexivity. Qed.
Lemma hinge_rod D : sound_jac D -> let L := crank D in let j := rod JHinge in let m := j_model j in let pd := rod_pd JHinge in
  compiled_by (rod_prog JHinge) 0 pd /\ automatic j /\ kinematic L j /\ wf_joints m /\ smooth L j 1 [0] /\ In j (comps_of pd) /\ jd_model pd = m /\ is_hard j = true /\ j_gain_fn j 0 = 0 /\ admissible L (update L m [0]) pd [1] /\
  m_nq m = m_nv m /\ keeps_scalars L m /\ nth 0 (value_at L j [0]) 0 = 0.
Proof.
  intros HD. cbv zeta. destruct (rod_ext JHinge) as (Em & Hu & _ & W & Ex). rewrite Em. destruct (rod_auto D circle (fun q => turn_z (nth 0 q 0)) v3_zero JHinge) as [Ha Hk].
  destruct (rod_smooth D circle (fun q => turn_z (nth 0 q 0)) v3_zero JHinge [0] [0] eq_refl circle_flat) as (Hs & HM & HJ).
  assert (EV : call (crank D) (rod JHinge) (update (crank D) (chain [JHinge]) [0]) = Ok [0]) by (etransitivity; [exact (rod_value D circle (fun q => turn_z (nth 0 q 0)) v3_zero JHinge [0])|]; unfold circle; cbn; rewrite cos_0; do 2 f_equal; ring).
  pose proof (auto_jacobian (crank D) (rod JHinge) 1 [0] [[0]] HD Ha Hk eq_refl (proj1 Hs) HM HJ eq_refl) as A. rewrite Em in A. unfold to_velocity in A. change (Nat.eqb (m_nq (chain [JHinge])) (m_nv (chain [JHinge]))) with true in A. cbv iota in A.
  split; [vm_compute; reflexivity|]. split; [exact Ha|]. split; [exact Hk|]. split; [apply sound_wf, chain_sound|]. split; [exact Hs|]. split; [left; vm_compute; reflexivity|]. split; [reflexivity|]. split; [reflexivity|]. split; [reflexivity|].
  split; [|split; [reflexivity|split; [apply rig_scalars|unfold value_at; rewrite Em; change (crank D) with (rig D circle (fun q => turn_z (nth 0 q 0)) v3_zero) in EV; unfold crank; rewrite EV; reflexivity]]].
  split; [reflexivity|]. split; [repeat (constructor; [cbn; lra|]); constructor|]. split; [repeat (constructor; [cbn; lra|]); constructor|]. replace (comps_of (rod_pd JHinge)) with [rod JHinge] by (vm_compute; reflexivity). constructor; [|constructor]. split; [discriminate|intros _ J e EJ Ee].
  rewrite A in EJ. apply Ok_inj in EJ. subst J. rewrite EV in Ee. apply Ok_inj in Ee. subst e. rewrite (gained_uniform 1 (rod JHinge) _ Hu) by reflexivity. unfold vscale, vneg, mv, dot. cbn. f_equal. ring.
Qed.
Lemma ball_rod D : sound_jac D -> let L := joystick D in let j := rod JBall in let m := j_model j in let pd := rod_pd JBall in let q := [1; 0; 0; 0] in
  compiled_by (rod_prog JBall) 0 pd /\ automatic j /\ kinematic L j /\ wf_joints m /\ smooth L j 1 q /\ In j (comps_of pd) /\ jd_model pd = m /\ is_hard j = true /\ j_gain_fn j 0 = 0 /\ admissible L (update L m q) pd [0; 0; 1] /\
  normalised m q /\ d_qpos (update L m q) = q /\ only_turns m [0; 0; 1] /\ nth 0 (value_at L j q) 0 = 0.
Proof.
  intros HD. cbv zeta. destruct (rod_ext JBall) as (Em & Hu & _ & W & Ex). rewrite Em. set (rot := fun q => q_mat (mkQ (nth 0 q 0) (nth 1 q 0) (nth 2 q 0) (nth 3 q 0))). destruct (rod_auto D sphere rot v3_zero JBall) as [Ha Hk]. destruct ball_joint as (Hw & Hn & Ho).
  destruct (rod_smooth D sphere rot v3_zero JBall [1; 0; 0; 0] [0; 0; 0; 0] eq_refl sphere_flat) as (Hs & HM & HJ).
  assert (EV : call (joystick D) (rod JBall) (update (joystick D) (chain [JBall]) [1; 0; 0; 0]) = Ok [0]) by (etransitivity; [exact (rod_value D sphere rot v3_zero JBall _)|]; unfold sphere; cbn; do 2 f_equal; field).
  pose proof (auto_jacobian (joystick D) (rod JBall) 1 [1; 0; 0; 0] _ HD Ha Hk eq_refl (proj1 Hs) HM HJ eq_refl) as A. rewrite Em in A. unfold to_velocity in A.
  change (d_qpos (update (joystick D) (chain [JBall]) [1; 0; 0; 0])) with [1; 0; 0; 0] in A. change (Nat.eqb (m_nq (chain [JBall])) (m_nv (chain [JBall]))) with false in A. cbv iota in A.
  destruct (jac_dq2v (chain [JBall]) [1; 0; 0; 0]) as [E0|] eqn:EE; [|vm_compute in EE; discriminate]. vm_compute in EE. apply Ok_inj in EE. subst E0. cbn [bind] in A. change (is_matb _ _ _) with true in A. cbv iota in A.
  split; [vm_compute; reflexivity|]. split; [exact Ha|]. split; [exact Hk|]. split; [exact Hw|]. split; [exact Hs|]. split; [left; vm_compute; reflexivity|]. split; [reflexivity|]. split; [reflexivity|]. split; [reflexivity|].
  split; [|split; [exact Hn|split; [reflexivity|split; [exact Ho|unfold value_at; rewrite Em, EV; reflexivity]]]].
  split; [reflexivity|]. split; [repeat (constructor; [cbn; lra|]); constructor|]. split; [repeat (constructor; [cbn; lra|]); constructor|]. replace (comps_of (rod_pd JBall)) with [rod JBall] by (vm_compute; reflexivity). constructor; [|constructor]. split; [discriminate|intros _ J e EJ Ee].
  rewrite A in EJ. apply Ok_inj in EJ. subst J. rewrite EV in Ee. apply Ok_inj in Ee. subst e. rewrite (gained_uniform 1 (rod JBall) _ Hu) by reflexivity. unfold vscale, vneg. cbn. f_equal. ring.
Qed.
Lemma rod_tidy : tidy (chain [JHinge]) (rod_prog JHinge).
Proof.
  split; [apply chain_sound|]. split; [repeat constructor; eapply made_custom_constraint; exact rod_new|]. split; [repeat (constructor; [first [exact I|reflexivity]|]); constructor|].
  split; [repeat constructor|]. split; [repeat (constructor; [first [exact I|reflexivity|split; [reflexivity|first [exact I|reflexivity]]]|]); constructor|].
  intros k o Hk Hb. do 3 (destruct k as [|k]; [injection Hk as <-; first [contradiction | left; eexists; vm_compute; reflexivity]|]). destruct k; discriminate.
Qed.
Lemma rod_solver D : sound_jac D -> shaped_jac D -> let L := crank D in let m := chain [JHinge] in let pd := rod_pd JHinge in let d := update L m [0] in let So := fun _ => mkSol [1] [] [] in
  tidy m (rod_prog JHinge) /\ compiled_by (rod_prog JHinge) 0 pd /\ sound_lib L m /\ wf_data m d /\ Forall (accepted L d) (comps_of pd) /\ exact_at L So m pd d /\ (exists w, admissible L d pd w) /\
  solve L So m (tvec [0]) [] pd = Ok (mkSol [1] [] [], [1]).
Proof.
  intros HD HS. cbv zeta. destruct (hinge_rod D HD) as (Hc & _ & _ & _ & _ & _ & _ & _ & _ & Av & _). destruct (rod_ext JHinge) as (Em & _ & Ed & W & Ex). rewrite Em in Av.
  assert (Ec : comps_of (rod_pd JHinge) = [rod JHinge]) by (vm_compute; reflexivity).
  assert (HL : sound_lib (crank D) (chain [JHinge])) by now apply rig_sound. assert (Hd : wf_data (chain [JHinge]) (update (crank D) (chain [JHinge]) [0])) by exact (rig_wf D circle _ _ JHinge [0] eq_refl).
  assert (Hacc : Forall (accepted (crank D) (update (crank D) (chain [JHinge]) [0])) (comps_of (rod_pd JHinge))) by (rewrite Ec; constructor; [|constructor]; unfold accepted; rewrite Ex; intros d _; exact Ed).
  assert (T : forall u, total_cost (crank D) (update (crank D) (chain [JHinge]) [0]) (comps_of (rod_pd JHinge)) u 0).
  { intros u. rewrite Ec. eexists. split; [constructor; [exact (cost_hard _ _ (rod JHinge) u _ _ _ Ex)|constructor]|]. unfold vsum; cbn. ring. }
  assert (B : best (crank D) (update (crank D) (chain [JHinge]) [0]) (rod_pd JHinge) [1]) by (split; [exact Av|]; exists 0; split; [apply T|]; intros u _; exists 0; split; [apply T|lra]).
  assert (X : exact_at (crank D) (fun _ => mkSol [1] [] []) (chain [JHinge]) (rod_pd JHinge) (update (crank D) (chain [JHinge]) [0])) by exact (constant_exact _ _ _ 0 _ _ _ rod_tidy Hc HL Hd Hacc B).
  split; [exact rod_tidy|]. split; [exact Hc|]. split; [exact HL|]. split; [exact Hd|]. split; [exact Hacc|]. split; [exact X|]. split; [eexists; exact Av|].
  destruct (lone_returns (crank D) (chain [JHinge]) (rod_prog JHinge) 0 (rod_pd JHinge) (fun _ => mkSol [1] [] []) [0] [] rod_tidy Hc HL eq_refl Hd Hacc X _ Ec) as (s & v & E & _); [unfold is_barrier; now rewrite Ex|eexists; exact Av|].
  rewrite E. f_equal. change (solve_from_data (crank D) (fun _ => mkSol [1] [] []) (chain [JHinge]) [] (rod_pd JHinge) (update (crank D) (chain [JHinge]) [0]) = Ok (s, v)) in E.
  unfold solve_from_data in E. destruct (assemble (crank D) (chain [JHinge]) (rod_pd JHinge) (update (crank D) (chain [JHinge]) [0])) as [Q|e]; [|discriminate E]. cbn [bind sol_primal] in E. injection E as <- <-. reflexivity.
Qed.
