(** C127: a crane on which a position task moves away from its target. *)
From Coq Require Import Lia.
From Verif Require Import Base Lin LinFacts Mjx Typing Component Problem SpecComponent SpecJoint SpecHistory SpecMotion SpecConf Rot Conf FrameJac JaxComponents LocalIK Witness SpecTree SpecShape SpecValue SpecDeriv SpecQP SpecSolve SpecDescent SpecFit SpecProblem.
From Verif Require Import CompThms2 ConfCases ValueCases MotionFacts2 ConfFacts4 ValueFacts4 FitFacts DerivFacts DerivThms DerivThms2 DerivCases LogCases QPCases DescentFacts DescentFacts2 AwayCases DriftThms.
Open Scope R_scope.

(** A carriage on a rail in direction (24/25, 0, 7/25); on it a ball joint with a rod of
    length one, which points upwards to begin with.  Configurations are the place of the
    carriage and a quaternion, which mjx normalises. *)
Definition carriage (q : list R) : v3 := mkV (24 / 25 * nth 0 q 0) 0 (7 / 25 * nth 0 q 0).
Definition tip_of (q : list R) : v3 :=
  let w := nth 1 q 0 in let x := nth 2 q 0 in let y := nth 3 q 0 in let z := nth 4 q 0 in let n := w * w + x * x + y * y + z * z in
  mkV (24 / 25 * nth 0 q 0 + 2 * (x * z + w * y) / n) (2 * (y * z - w * x) / n) (7 / 25 * nth 0 q 0 + (w * w - x * x - y * y + z * z) / n).
Definition crane_kin (d : mjdata) : mjdata :=
  let q := d_qpos d in let r := m3_list (q_mat (mkQ (nth 1 q 0) (nth 2 q 0) (nth 3 q 0) (nth 4 q 0))) in
  {| d_qpos := q; d_xpos := [[0; 0; 0]; v3_list (carriage q); v3_list (tip_of q)]; d_xmat := [id9; id9; r]; d_xquat := [[1; 0; 0; 0]; [1; 0; 0; 0]; [nth 1 q 0; nth 2 q 0; nth 3 q 0; nth 4 q 0]];
     d_xipos := [[0; 0; 0]; v3_list (carriage q); v3_list (tip_of q)]; d_geom_xpos := [v3_list (carriage q); v3_list (tip_of q)]; d_geom_xmat := [id9; r]; d_site_xpos := []; d_site_xmat := [];
     d_subtree_com := d_subtree_com d; d_cdof := d_cdof d; d_efc_pos := []; d_efc_is_equality := []; d_efc_J := [] |}.
Definition rest (m : mjmodel) : mjdata :=
  {| d_qpos := vzero (m_nq m); d_xpos := repeat (vzero 3) 3; d_xmat := repeat (vzero 9) 3; d_xquat := repeat (vzero 4) 3; d_xipos := repeat (vzero 3) 3;
     d_geom_xpos := repeat (vzero 3) 2; d_geom_xmat := repeat (vzero 9) 2; d_site_xpos := []; d_site_xmat := []; d_subtree_com := repeat (vzero 3) 3;
     d_cdof := repeat (vzero 6) (m_nv m); d_efc_pos := []; d_efc_is_equality := []; d_efc_J := [] |}.
Definition crane D : lib := mkL (1 / 1000) rest (fun _ d => crane_kin d) (fun _ d => d) (fun _ d => d) D (fun _ => None).
Notation rail := (chain [JSlide; JBall]).
Definition up : vec := [0; 1; 0; 0; 0].
Lemma crane_wf D y : List.length y = 5%nat -> wf_data rail (update (crane D) rail y).
Proof.
  intros Hy. unfold wf_data, is_mat. cbn [update crane l_make_constraint l_com_pos kin l_kinematics l_make_data set_qpos crane_kin rest d_qpos d_xpos d_xmat d_xquat d_xipos d_geom_xpos d_geom_xmat d_site_xpos d_site_xmat d_subtree_com d_cdof d_efc_pos d_efc_is_equality d_efc_J].
  repeat split; try (rewrite Hy; cbn; lia); try (repeat constructor; fail).
Qed.
Lemma crane_position D y : position (update (crane D) rail y) OBody 2 = v3_list (tip_of y). Proof. reflexivity. Qed.

(** The program: a position task of gain 2 with target (2, 0, 0). *)
Definition drift_prog : list wop := [WNewProblem rail (tscalar (-10)) (tscalar 10); WNewComp (pos_comp None); WCop 0 (OpTargetPos (tvec [2; 0; 0])); WAdd 0 0].
Definition drift_pd : jdata := Eval vm_compute in result (fst (step (WCompile 0) (run drift_prog empty_world))).
Definition reach : jaxc := spot [JSlide; JBall] [2; 0; 0].
Lemma drift_compiled : compiled_by drift_prog 0 drift_pd /\ comps_of drift_pd = [reach] /\ jd_model drift_pd = rail /\ jd_vmin drift_pd = repeat (-10) 4 /\ jd_vmax drift_pd = repeat 10 4.
Proof. split; [vm_compute; reflexivity|]. repeat split; vm_compute; reflexivity. Qed.
Lemma drift_tidy : tidy rail drift_prog.
Proof.
  split; [apply chain_sound|]. split; [repeat constructor; eapply made_position_task; exact (pos_comp_new None)|]. split; [repeat (constructor; [first [exact I|reflexivity]|]); constructor|].
  split; [repeat constructor|]. split; [repeat (constructor; [first [exact I|reflexivity|split; [reflexivity|first [exact I|reflexivity]]]|]); constructor|].
  intros k o Hk Hb. do 4 (destruct k as [|k]; [injection Hk as <-; first [contradiction | left; eexists; vm_compute; reflexivity]|]). destruct k; discriminate.
Qed.
Lemma reach_ok : position_task None "tip" OBody reach /\ target_is reach [2; 0; 0] /\ j_model reach = rail /\ uniform 2 reach /\
  exists W, j_ext reach = JTask W 0 (JTPos 2 OBody (tvec [2; 0; 0])) /\ j_mask_idxs reach = [0; 1; 2]%Z /\ forall l, List.length l = 3%nat -> mv W l = l.
Proof.
  split; [|split; [right; do 4 eexists; vm_compute; reflexivity|split; [reflexivity|split; [split; [vm_compute; repeat constructor|reflexivity]|]]]].
  - exists "reach"%string, (tscalar 1), (tscalar 2), None, 0, (pos_comp None). split; [exact (pos_comp_new None)|].
    eapply compiled_is; [reflexivity|constructor; [exact I|constructor; [apply chain_sound|constructor]]|split; [exact I|split; [vm_compute; reflexivity|exact I]]|eexists; vm_compute; reflexivity].
  - eexists. split; [vm_compute; reflexivity|]. split; [reflexivity|]. intros l Hl. destruct l as [|a [|b [|c [|? ?]]]]; try discriminate. unfold mv, dot. cbn. repeat (apply f_equal2; [ring|]). reflexivity.
Qed.
Lemma reach_value D q : call (crane D) reach (update (crane D) rail q) = Ok [vx (tip_of q) - 2; vy (tip_of q) - 0; vz (tip_of q) - 0].
Proof. destruct reach_ok as (_ & _ & _ & _ & W & E & M & _). unfold call. rewrite E, M. reflexivity. Qed.
Definition slopes : mat := [[24 / 25; 0; 0; 2; 0]; [0; 0; -2; 0; 0]; [7 / 25; 0; 0; 0; 0]].
Lemma reach_smooth D : is_mat 3 5 slopes /\ has_jacobian (value_at (crane D) reach) up slopes.
Proof.
  split; [split; [reflexivity|repeat constructor]|]. intros i Hi. cbn in Hi. destruct i as [|[|[|i]]]; [| | |lia]; cbn [nth slopes]; unfold value_at; change (j_model reach) with rail.
  - apply grad_ext with (F := fun y => vx (tip_of y) - 2); [|intros y _; rewrite reach_value; reflexivity]. unfold tip_of, up; cbn [vx vy vz]. (eapply grad_eq; [|grad]); cbn [nth]; try lra; cbn; repeat (apply f_equal2; [field|]); reflexivity.
  - apply grad_ext with (F := fun y => vy (tip_of y) - 0); [|intros y _; rewrite reach_value; reflexivity]. unfold tip_of, up; cbn [vx vy vz]. (eapply grad_eq; [|grad]); cbn [nth]; try lra; cbn; repeat (apply f_equal2; [field|]); reflexivity.
  - apply grad_ext with (F := fun y => vz (tip_of y) - 0); [|intros y _; rewrite reach_value; reflexivity]. unfold tip_of, up; cbn [vx vy vz]. (eapply grad_eq; [|grad]); cbn [nth]; try lra; cbn; repeat (apply f_equal2; [field|]); reflexivity.
Qed.
Lemma crane_up : wf_joints rail /\ normalised rail up.
Proof.
  split; [apply sound_wf, chain_sound|]. intros j a H. destruct H as [(H & ->)|(H & ->)]; destruct j as [|[|[|j]]]; try discriminate H. unfold norm2_at, up. cbn. ring.
Qed.
Lemma crane_twice a b c d : turns_twice rail [a; b / 2; c / 2; d / 2] [a; b; c; d].
Proof.
  split; [reflexivity|]. split; [|split].
  - intros j (t & H & K). destruct j as [|[|[|j]]]; try discriminate H; [reflexivity|]. injection H as <-. discriminate K.
  - intros j H. destruct j as [|[|[|j]]]; discriminate H.
  - intros j x y H. destruct H as [(H & -> & ->)|(H & -> & ->)]; destruct j as [|[|[|j]]]; try discriminate H. unfold vec_in, v3_scale. cbn. f_equal; field.
Qed.
Lemma crane_rates D : sound_jac D -> exists J, jacobian (crane D) reach (update (crane D) rail up) = Ok J /\ is_mat 3 4 J /\ (forall a b c d, mv J [a; b; c; d] = [24 / 25 * a + 2 * c; -2 * b; 7 / 25 * a]) /\
  forall a b c d i, (i < 3)%nat -> derivative_at_0 (fun t => nth i (value_after (crane D) reach up [a; b; c; d] t) 0) (nth i [24 / 25 * a + c; - b; 7 / 25 * a] 0).
Proof.
  intros HD. destruct reach_ok as (_ & _ & Em & _ & W & E & _). destruct crane_up as [Hw Hn]. destruct (reach_smooth D) as [HM HJ].
  assert (Ha : automatic reach) by (unfold automatic; now rewrite E).
  assert (Hk : kinematic (crane D) reach) by (apply kinematic_position; [intros y; repeat split|left; do 5 eexists; exact E]).
  assert (V : forall y, List.length y = m_nq (j_model reach) -> exists e, call (crane D) reach (update (crane D) (j_model reach) y) = Ok e /\ List.length e = 3%nat) by (intros y _; eexists; split; [apply reach_value|reflexivity]).
  assert (Hs : smooth (crane D) reach 3 up) by (split; [exact V|exists slopes; split; [exact HM|exact HJ]]).
  pose proof (auto_jacobian (crane D) reach 3 up slopes HD Ha Hk eq_refl V HM HJ eq_refl) as A.
  destruct (automatic_along_motion (crane D) reach 3 up [0; 0; 0; 0] [0; 0; 0; 0] HD Ha Hk Hw Hs eq_refl Hn eq_refl eq_refl) as (J & EJ & MJ & _); [split; [reflexivity|]; split; [reflexivity|]; split; [reflexivity|]; intros j x y H; destruct H as [(H & -> & ->)|(H & -> & ->)]; destruct j as [|[|[|j]]]; try discriminate H; unfold vec_in, v3_scale; cbn; f_equal; ring|].
  exists J. split; [exact EJ|]. split; [exact MJ|].
  assert (MV : forall a b c d, mv J [a; b; c; d] = [24 / 25 * a + 2 * c; -2 * b; 7 / 25 * a]).
  { intros a b c d. rewrite A in EJ. unfold to_velocity in EJ. change (d_qpos (update (crane D) (j_model reach) up)) with up in EJ. change (Nat.eqb (m_nq (j_model reach)) (m_nv (j_model reach))) with false in EJ. cbv iota in EJ.
    destruct (jac_dq2v (j_model reach) up) as [E0|] eqn:EE; [|discriminate EJ]. vm_compute in EE. apply Ok_inj in EE. subst E0. cbn [bind] in EJ. change (is_matb _ _ _) with true in EJ. cbv iota in EJ. apply Ok_inj in EJ. subst J.
    cbn. repeat (apply f_equal2; [field|]). reflexivity. }
  split; [exact MV|]. intros a b c d i Hi.
  destruct (automatic_along_motion (crane D) reach 3 up [a; b / 2; c / 2; d / 2] [a; b; c; d] HD Ha Hk Hw Hs eq_refl Hn eq_refl eq_refl (crane_twice a b c d)) as (J' & EJ' & _ & Hd). rewrite EJ in EJ'. apply Ok_inj in EJ'. subst J'.
  specialize (Hd i Hi). rewrite MV in Hd. replace (nth i [24 / 25 * a + c; - b; 7 / 25 * a] 0) with (nth i [24 / 25 * a + 2 * (c / 2); -2 * (b / 2); 7 / 25 * a] 0); [exact Hd|]. destruct i as [|[|[|i]]]; [| | |lia]; cbn; field.
Qed.

(** Best velocities of a lone undamped task that can be met exactly. *)
Lemma sq_zero (l : vec) : sq l <= 0 -> l = vzero (List.length l).
Proof.
  unfold sq. induction l as [|x l IH]; intros H; [reflexivity|]. rewrite dot_cons in H. pose proof (QPThms3.sq_nonneg l) as N. unfold sq in N. assert (x = 0) by nra. subst x. cbn. unfold vzero in *. cbn. f_equal. apply IH. lra.
Qed.
Lemma zero_best L d pd j W k J e v : comps_of pd = [j] -> j_ext j = JTask W 0 k -> jacobian L j d = Ok J -> call L j d = Ok e -> (forall l, List.length l = List.length e -> mv W l = l) -> List.length J = List.length e -> List.length (gained j e) = List.length e ->
  admissible L d pd v -> vadd (mv J v) (gained j e) = vzero (List.length e) -> best L d pd v /\ forall u, best L d pd u -> vadd (mv J u) (gained j e) = vzero (List.length e).
Proof.
  intros Hc Ex EJ Ee HW LJ Lg Av Z. assert (LL : forall u, List.length (vadd (mv J u) (gained j e)) = List.length e) by (intros u; rewrite vadd_length; rewrite ?mv_length; lia).
  assert (T : forall u, total_cost L d (comps_of pd) u (1 / 2 * sq (vadd (mv J u) (gained j e)))).
  { intros u. rewrite Hc. eexists. split; [constructor; [exact (cost_task L d j u W 0 k J e Ex EJ Ee)|constructor]|]. rewrite (HW _ (LL u)). unfold vsum; cbn. ring. }
  assert (Z0 : sq (vzero (List.length e)) = 0) by (unfold sq; apply dot_vzero_l). split.
  - split; [exact Av|]. eexists. split; [apply T|]. intros u _. eexists. split; [apply T|]. rewrite Z, Z0. pose proof (QPThms3.sq_nonneg (vadd (mv J u) (gained j e))). lra.
  - intros u (_ & x & Tx & Bx). destruct (Bx v Av) as (y & Ty & Ly). rewrite (QPThms3.total_cost_fun L d _ _ _ _ Tx (T u)), (QPThms3.total_cost_fun L d _ _ _ _ Ty (T v)), Z, Z0 in Ly.
    rewrite <- (LL u). apply sq_zero. lra.
Qed.
Lemma reach_now D : call (crane D) reach (update (crane D) rail up) = Ok [-2; 0; 1].
Proof. rewrite reach_value. unfold tip_of, up. cbn. f_equal. repeat (apply f_equal2; [field|]). reflexivity. Qed.
Lemma four (l : vec) : List.length l = 4%nat -> exists a b c d, l = [a; b; c; d].
Proof. do 5 (destruct l as [|? l]; try discriminate). intros _. repeat eexists. Qed.
Lemma drift_box L x a b c d : -10 <= a <= 10 -> -10 <= b <= 10 -> -10 <= c <= 10 -> -10 <= d <= 10 -> admissible L x drift_pd [a; b; c; d].
Proof.
  intros A B C E. destruct drift_compiled as (_ & Ec & Em & El & Eh). destruct reach_ok as (_ & _ & _ & _ & W & Ex & _). unfold admissible. rewrite Ec, Em, El, Eh.
  split; [reflexivity|]. split; [repeat (constructor; [lra|]); constructor|]. split; [repeat (constructor; [lra|]); constructor|]. constructor; [|constructor]. unfold is_barrier, is_hard. rewrite Ex. split; discriminate.
Qed.
Lemma drift_best D : sound_jac D -> let d := update (crane D) rail up in best (crane D) d drift_pd [- (50 / 7); 0; 38 / 7; 0] /\
  forall v, best (crane D) d drift_pd v -> derivative_at_0 (fun t => sq (value_after (crane D) reach up v t)) (12 / 7).
Proof.
  intros HD. cbv zeta. destruct (crane_rates D HD) as (J & EJ & [LJ _] & MV & R). destruct drift_compiled as (_ & Ec & Em & _). destruct reach_ok as (_ & _ & _ & Hu & W & Ex & _ & HW).
  assert (Gn : gained reach [-2; 0; 1] = [-4; 0; 2]). { rewrite (gained_uniform 2 reach _ Hu) by reflexivity. unfold vscale. cbn. repeat (apply f_equal2; [ring|]). reflexivity. }
  destruct (zero_best (crane D) (update (crane D) rail up) drift_pd reach W _ J [-2; 0; 1] [- (50 / 7); 0; 38 / 7; 0] Ec Ex EJ (reach_now D) HW LJ) as [B U].
  - rewrite Gn. reflexivity.
  - apply drift_box; lra.
  - rewrite MV, Gn. unfold vadd, vzero. cbn. repeat (apply f_equal2; [field|]). reflexivity.
  - split; [exact B|]. intros v Bv. specialize (U v Bv). pose proof (proj1 (proj1 Bv)) as Lv. rewrite Em in Lv. destruct (four v Lv) as (a & b & c & d & ->).
    rewrite MV, Gn in U. unfold vadd, vzero in U. cbn in U. injection U as U1 U2 U3. assert (Ea : a = - (50 / 7)) by lra. assert (Ee : c = 38 / 7) by lra. assert (Eb : b = 0) by lra. subst a b c.
    assert (I : forall t, exists q', integrate rail up [- (50 / 7); 0; 38 / 7; d] t = Ok q' /\ List.length q' = 5%nat) by (intros t; apply integrate_length; [apply crane_up|reflexivity|reflexivity]).
    assert (LV : forall t, List.length (value_after (crane D) reach up [- (50 / 7); 0; 38 / 7; d] t) = 3%nat).
    { intros t. unfold value_after, value_at. change (j_model reach) with rail. destruct (I t) as (q' & -> & _). rewrite reach_value. reflexivity. }
    pose proof (lim_sq (-1) 1 3 _ 0 [24 / 25 * - (50 / 7) + 38 / 7; - 0; 7 / 25 * - (50 / 7)] ltac:(lra) (fun s _ => LV s) eq_refl (R (- (50 / 7)) 0 (38 / 7) d) W 2) as G.
    assert (V0 : value_after (crane D) reach up [- (50 / 7); 0; 38 / 7; d] 0 = [-2; 0; 1]).
    { unfold value_after, value_at. change (j_model reach) with rail. rewrite integrate_now by (try reflexivity; apply crane_up). now rewrite reach_now. }
    rewrite V0, !HW in G by reflexivity.
    match type of G with derivable_pt_lim _ _ ?x => replace x with (12 / 7) in G by (unfold dot; cbn; field) end.
    revert G. apply derivable_pt_lim_ext. intros t. rewrite HW by apply LV. field.
Qed.
Lemma drift_refuted D : sound_jac D -> exists L os pd j q, l_jacrev L = D /\ tidy (j_model j) os /\ compiled_by os 0 pd /\ comps_of pd = [j] /\ position_task None "tip" OBody j /\ target_is j [2; 0; 0] /\ uniform 2 j /\
  List.length q = m_nq (j_model j) /\ normalised (j_model j) q /\ keeps_positions L (j_model j) /\ smooth L j 3 q /\
  (forall y, List.length y = m_nq (j_model j) -> wf_data (j_model j) (update L (j_model j) y) /\ position (update L (j_model j) y) OBody 2 = v3_list (tip_of y)) /\
  admissible L (update L (j_model j) q) pd (vzero (m_nv (j_model j))) /\ (exists v, best L (update L (j_model j) q) pd v) /\
  forall v, best L (update L (j_model j) q) pd v -> derivative_at_0 (fun t => sq (value_after L j q v t)) (12 / 7).
Proof.
  intros HD. destruct reach_ok as (Hj & Ht & Em & Hu & _). destruct drift_compiled as (Hc & Ec & _). destruct (drift_best D HD) as [B U]. destruct (reach_smooth D) as [HM HJ].
  exists (crane D), drift_prog, drift_pd, reach, up. rewrite Em. split; [reflexivity|]. split; [exact drift_tidy|]. split; [exact Hc|]. split; [exact Ec|]. split; [exact Hj|]. split; [exact Ht|]. split; [exact Hu|].
  split; [reflexivity|]. split; [apply crane_up|]. split; [intros y; repeat split|].
  split; [split; [intros y _; eexists; split; [apply reach_value|reflexivity]|exists slopes; split; [exact HM|exact HJ]]|].
  split; [intros y Hy; split; [now apply crane_wf|reflexivity]|]. split; [apply drift_box; lra|]. split; [eexists; exact B|exact U].
Qed.

(** ** One joint: the body of the crank at (1, 0, 0) and the stick, with target (1, 1, 0) *)
Definition one_prog t0 : list wop := [WNewProblem (chain [t0]) (tscalar (-10)) (tscalar 10); WNewComp (pos_comp None); WCop 0 (OpTargetPos (tvec [1; 1; 0])); WAdd 0 0].
Definition hinge_pd : jdata := Eval vm_compute in result (fst (step (WCompile 0) (run (one_prog JHinge) empty_world))).
Definition ball_pd : jdata := Eval vm_compute in result (fst (step (WCompile 0) (run (one_prog JBall) empty_world))).
Lemma spot_weights t0 : exists W, j_ext (spot [t0] [1; 1; 0]) = JTask W 0 (JTPos 1 OBody (tvec [1; 1; 0])) /\ forall l, List.length l = 3%nat -> mv W l = l.
Proof. eexists. split; [vm_compute; reflexivity|]. intros l Hl. destruct l as [|a [|b [|c [|? ?]]]]; try discriminate. unfold mv, dot. cbn. repeat (apply f_equal2; [ring|]). reflexivity. Qed.
Lemma spot_uniform t0 : uniform 2 (spot [t0] [1; 1; 0]).
Proof. split; [vm_compute; repeat constructor|reflexivity]. Qed.
Lemma hinge_case D : sound_jac D -> let L := crank D in let j := spot [JHinge] [1; 1; 0] in let m := j_model j in
  compiled_by (one_prog JHinge) 0 hinge_pd /\ comps_of hinge_pd = [j] /\ jd_model hinge_pd = m /\ automatic j /\ kinematic L j /\ wf_joints m /\ smooth L j 3 [0] /\ seeks j = true /\ uniform 2 j /\ nonneg_weights j /\ List.length (j_gain j) = 3%nat /\
  best L (update L m [0]) hinge_pd [2] /\ admissible L (update L m [0]) hinge_pd (vzero (m_nv m)) /\ m_nq m = m_nv m /\ keeps_scalars L m.
Proof.
  intros HD. cbv zeta. destruct (spot_weights JHinge) as (W & Ex & HW). destruct (spot_ok JHinge [1; 1; 0] eq_refl) as (_ & _ & Em & _). rewrite Em.
  assert (Hs : smooth (crank D) (spot [JHinge] [1; 1; 0]) 3 [0]) by now apply crank_smooth. assert (Hk : kinematic (crank D) (spot [JHinge] [1; 1; 0])) by now apply spot_kinematic.
  assert (Ha : automatic (spot [JHinge] [1; 1; 0])) by now apply spot_automatic. assert (Hw : wf_joints (chain [JHinge])) by apply sound_wf, chain_sound.
  split; [vm_compute; reflexivity|]. split; [vm_compute; reflexivity|]. split; [reflexivity|]. split; [exact Ha|]. split; [exact Hk|]. split; [exact Hw|]. split; [exact Hs|]. split; [reflexivity|]. split; [apply spot_uniform|].
  split; [unfold nonneg_weights; rewrite Ex; lra|]. split; [reflexivity|].
  assert (AD : forall w, -10 <= w <= 10 -> admissible (crank D) (update (crank D) (chain [JHinge]) [0]) hinge_pd [w]).
  { intros w Hw'. split; [reflexivity|]. split; [repeat (constructor; [lra|]); constructor|]. split; [repeat (constructor; [lra|]); constructor|]. constructor; [|constructor]. split; discriminate. }
  split; [|split; [apply AD; lra|split; [reflexivity|apply rig_scalars]]].
  destruct (automatic_scalar (crank D) (spot [JHinge] [1; 1; 0]) 3 [0] [2] HD Ha Hk Hw Hs eq_refl eq_refl (rig_scalars D _ _ _ _) eq_refl) as (J & EJ & [LJ _] & R). rewrite Em in EJ.
  assert (EV : call (crank D) (spot [JHinge] [1; 1; 0]) (update (crank D) (chain [JHinge]) [0]) = Ok [0; -1; 0]).
  { etransitivity; [exact (spot_value D circle (fun q => turn_z (nth 0 q 0)) v3_zero JHinge 1 1 0 [0])|]. unfold circle. cbn. rewrite cos_0, sin_0. f_equal. repeat (apply f_equal2; [ring|]). reflexivity. }
  assert (MV : mv J [2] = [0; 2; 0]).
  { assert (S2 : forall t, value_after (crank D) (spot [JHinge] [1; 1; 0]) [0] [2] t = [cos (t * 2) - 1; sin (t * 2) - 1; 0 - 0]).
    { intros t. unfold value_after, value_at. rewrite Em, go_with. transitivity (match call (crank D) (spot [JHinge] [1; 1; 0]) (update (crank D) (chain [JHinge]) [t * 2]) with Ok e => e | Err _ => [] end); [reflexivity|]. pose proof (spot_value D circle (fun q => turn_z (nth 0 q 0)) v3_zero JHinge 1 1 0 [t * 2]) as SV. cbv zeta in SV. rewrite Em in SV. unfold crank. rewrite SV. reflexivity. }
    assert (LM : List.length (mv J [2]) = 3%nat) by now rewrite mv_length.
    apply list_ext; [exact LM|]. intros i Hi. rewrite LM in Hi. specialize (R i Hi).
    assert (T : derivable_pt_lim (fun t => t * 2) 0 2) by (enough (G : derivable_pt_lim (fun t => t * 2) 0 (1 * 2 + 0 * 0)) by (now replace (1 * 2 + 0 * 0) with 2 in G by ring); exact (derivable_pt_lim_mult (fun t => t) (fun _ => 2) 0 1 0 (derivable_pt_lim_id 0) (derivable_pt_lim_const 2 0))).
    refine (uniqueness_limite _ _ _ _ R _). apply (derivable_pt_lim_ext (fun t => nth i [cos (t * 2) - 1; sin (t * 2) - 1; 0 - 0] 0)); [intros t; now rewrite S2|].
    destruct i as [|[|[|i]]]; [| | |lia]; cbn [nth].
    - enough (G : derivable_pt_lim (fun t => cos (t * 2) - 1) 0 (- sin (0 * 2) * 2 - 0)) by (rewrite Rmult_0_l, sin_0 in G; now replace (- 0 * 2 - 0) with 0 in G by ring). exact (derivable_pt_lim_minus (fun t => cos (t * 2)) (fun _ => 1) 0 _ _ (derivable_pt_lim_comp (fun t => t * 2) cos 0 _ _ T (derivable_pt_lim_cos (0 * 2))) (derivable_pt_lim_const 1 0)).
    - enough (G : derivable_pt_lim (fun t => sin (t * 2) - 1) 0 (cos (0 * 2) * 2 - 0)) by (rewrite Rmult_0_l, cos_0 in G; now replace (1 * 2 - 0) with 2 in G by ring). exact (derivable_pt_lim_minus (fun t => sin (t * 2)) (fun _ => 1) 0 _ _ (derivable_pt_lim_comp (fun t => t * 2) sin 0 _ _ T (derivable_pt_lim_sin (0 * 2))) (derivable_pt_lim_const 1 0)).
    - apply derivable_pt_lim_const. }
  assert (Gn : gained (spot [JHinge] [1; 1; 0]) [0; -1; 0] = [0; -2; 0]). { rewrite (gained_uniform 2 _ _ (spot_uniform JHinge)) by reflexivity. unfold vscale. cbn. repeat (apply f_equal2; [ring|]). reflexivity. }
  destruct (zero_best (crank D) (update (crank D) (chain [JHinge]) [0]) hinge_pd (spot [JHinge] [1; 1; 0]) W _ J [0; -1; 0] [2] eq_refl Ex EJ EV HW LJ) as [B _]; [now rewrite Gn|apply AD; lra| |exact B].
  rewrite MV, Gn. unfold vadd, vzero. cbn. repeat (apply f_equal2; [ring|]). reflexivity.
Qed.
Lemma ball_case D : sound_jac D -> let L := joystick D in let j := spot [JBall] [1; 1; 0] in let m := j_model j in let q := [1; 0; 0; 0] in
  compiled_by (one_prog JBall) 0 ball_pd /\ comps_of ball_pd = [j] /\ jd_model ball_pd = m /\ automatic j /\ kinematic L j /\ wf_joints m /\ smooth L j 3 q /\ seeks j = true /\ uniform 2 j /\ nonneg_weights j /\ List.length (j_gain j) = 3%nat /\
  best L (update L m q) ball_pd [0; 0; 1] /\ admissible L (update L m q) ball_pd (vzero (m_nv m)) /\ normalised m q /\ d_qpos (update L m q) = q /\ only_turns m [0; 0; 1].
Proof.
  intros HD. cbv zeta. destruct (spot_weights JBall) as (W & Ex & HW). destruct (spot_ok JBall [1; 1; 0] eq_refl) as (_ & _ & Em & _). rewrite Em. destruct ball_joint as (Hw & Hn & Ho).
  assert (Hs : smooth (joystick D) (spot [JBall] [1; 1; 0]) 3 [1; 0; 0; 0]) by now apply joystick_is_smooth. assert (Hk : kinematic (joystick D) (spot [JBall] [1; 1; 0])) by now apply spot_kinematic.
  assert (Ha : automatic (spot [JBall] [1; 1; 0])) by now apply spot_automatic.
  split; [vm_compute; reflexivity|]. split; [vm_compute; reflexivity|]. split; [reflexivity|]. split; [exact Ha|]. split; [exact Hk|]. split; [exact Hw|]. split; [exact Hs|]. split; [reflexivity|]. split; [apply spot_uniform|].
  split; [unfold nonneg_weights; rewrite Ex; lra|]. split; [reflexivity|].
  assert (AD : forall a b c, -10 <= a <= 10 -> -10 <= b <= 10 -> -10 <= c <= 10 -> admissible (joystick D) (update (joystick D) (chain [JBall]) [1; 0; 0; 0]) ball_pd [a; b; c]).
  { intros a b c A B C. split; [reflexivity|]. split; [repeat (constructor; [lra|]); constructor|]. split; [repeat (constructor; [lra|]); constructor|]. constructor; [|constructor]. split; discriminate. }
  split; [|split; [apply AD; lra|split; [exact Hn|split; [reflexivity|exact Ho]]]].
  destruct (joystick_smooth D 1 1 0) as [HM HJ].
  pose proof (auto_jacobian (joystick D) (spot [JBall] [1; 1; 0]) 3 [1; 0; 0; 0] _ HD Ha Hk eq_refl (proj1 Hs) HM HJ eq_refl) as A. rewrite Em in A. unfold to_velocity in A.
  change (d_qpos (update (joystick D) (chain [JBall]) [1; 0; 0; 0])) with [1; 0; 0; 0] in A. change (Nat.eqb (m_nq (chain [JBall])) (m_nv (chain [JBall]))) with false in A. cbv iota in A.
  destruct (jac_dq2v (chain [JBall]) [1; 0; 0; 0]) as [E0|] eqn:EE; [|vm_compute in EE; discriminate]. vm_compute in EE. apply Ok_inj in EE. subst E0. cbn [bind] in A. change (is_matb _ _ _) with true in A. cbv iota in A.
  assert (EV : call (joystick D) (spot [JBall] [1; 1; 0]) (update (joystick D) (chain [JBall]) [1; 0; 0; 0]) = Ok [0; -1; 0]).
  { etransitivity; [exact (spot_value D sphere (fun q => q_mat (mkQ (nth 0 q 0) (nth 1 q 0) (nth 2 q 0) (nth 3 q 0))) v3_zero JBall 1 1 0 [1; 0; 0; 0])|]. unfold sphere. cbn. f_equal. repeat (apply f_equal2; [field|]). reflexivity. }
  assert (Gn : gained (spot [JBall] [1; 1; 0]) [0; -1; 0] = [0; -2; 0]). { rewrite (gained_uniform 2 _ _ (spot_uniform JBall)) by reflexivity. unfold vscale. cbn. repeat (apply f_equal2; [ring|]). reflexivity. }
  destruct (zero_best (joystick D) (update (joystick D) (chain [JBall]) [1; 0; 0; 0]) ball_pd (spot [JBall] [1; 1; 0]) W _ _ [0; -1; 0] [0; 0; 1] eq_refl Ex A EV HW eq_refl) as [B _]; [now rewrite Gn|apply AD; lra| |exact B].
  rewrite Gn. cbn. repeat (apply f_equal2; [field|]). reflexivity.
Qed.
