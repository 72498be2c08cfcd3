(** C126: a lever on which a frame task moves away from its target. *)
From Coq Require Import Lia.
From Verif Require Import Base Lin LinFacts Mjx Typing Component Problem SpecComponent SpecJoint SpecHistory SpecMotion SpecConf Rot Conf FrameJac JaxComponents LocalIK Witness SpecTree SpecShape SpecValue SpecDeriv SpecQP SpecSolve SpecDescent SpecFit SpecProblem.
From Verif Require Import CompThms2 ConfCases ValueCases MotionFacts2 ConfFacts4 ValueFacts4 FitFacts DerivFacts DerivThms DerivThms2 DerivCases LogFacts2 LogThms LogCases QPCases DescentFacts DescentFacts2.
From Verif Require Import SpecSolve AwayThms.
From Verif Require SpecTwist SpecOnly TwistThms OnlyThms.
Open Scope R_scope.

(** A hinge at (s + 1/2, 0, 0) carrying a body at distance 1/2, at (s, 0, 0) to begin with. *)
Definition arc (s : R) (q : list R) : v3 := mkV (s + 1 / 2 - cos (nth 0 q 0) / 2) (- (sin (nth 0 q 0) / 2)) 0.
Definition lever s D : lib := rig D (arc s) (fun q => turn_z (nth 0 q 0)) (mkV (s + 1 / 2) 0 0).
Lemma lever_pose s D y : pose_is (update (lever s D) (chain [JHinge]) y) OBody 1 (turn_z (nth 0 y 0)) (arc s y).
Proof. split; [apply turn_rotation|]. split; reflexivity. Qed.
Lemma lever_start s D : pose_is (update (lever s D) (chain [JHinge]) [0]) OBody 1 m3_id (mkV s 0 0).
Proof.
  destruct (lever_pose s D [0]) as (R & O & P). cbn [nth] in *. unfold turn_z, arc in *. cbn [nth] in *. rewrite cos_0, sin_0, Ropp_0 in *. split; [exact R|]. split; [exact O|].
  rewrite P. unfold v3_list. cbn. repeat (apply f_equal2; [lra|]). reflexivity.
Qed.
Lemma lever_axes s D : exists J0, get_frame_jacobian_world_aligned (chain [JHinge]) (update (lever s D) (chain [JHinge]) [0]) (Z.of_nat 1) OBody = Ok J0 /\
  forall w, linear_velocity J0 [w] = [0; - (w / 2); 0] /\ angular_velocity J0 [w] = [0; 0; w].
Proof.
  eexists. split; [reflexivity|]. intros w. unfold linear_velocity, angular_velocity. cbn. rewrite cos_0, sin_0. split; repeat (apply f_equal2; [field|]); reflexivity.
Qed.
Lemma go_with w t : integrate (chain [JHinge]) [0] [w] t = Ok [t * w].
Proof. cbn. do 2 f_equal. ring. Qed.
Lemma lever_moves s D w : moves_with (data_after (lever s D) (chain [JHinge]) [0] [w]) OBody 1 [0; - (w / 2); 0] [0; 0; w].
Proof.
  assert (A : forall t, data_after (lever s D) (chain [JHinge]) [0] [w] t = update (lever s D) (chain [JHinge]) [t * w]) by (intros t; unfold data_after; now rewrite go_with).
  assert (P : forall t, position (data_after (lever s D) (chain [JHinge]) [0] [w] t) OBody 1 = [s + 1 / 2 - cos (t * w) / 2; - (sin (t * w) / 2); 0]) by (intros t; rewrite A; reflexivity).
  assert (O : forall t, orientation (data_after (lever s D) (chain [JHinge]) [0] [w] t) OBody 1 = [cos (t * w); - sin (t * w); 0; sin (t * w); cos (t * w); 0; 0; 0; 1]) by (intros t; rewrite A; reflexivity).
  assert (T : derivable_pt_lim (fun t => t * w) 0 w) by (enough (G : derivable_pt_lim (fun t => t * w) 0 (1 * w + 0 * 0)) by (now replace (1 * w + 0 * 0) with w in G by ring); exact (derivable_pt_lim_mult (fun t => t) (fun _ => w) 0 1 0 (derivable_pt_lim_id 0) (derivable_pt_lim_const w 0))).
  assert (C : derivable_pt_lim (fun t => cos (t * w)) 0 0) by (enough (G : derivable_pt_lim (fun t => cos (t * w)) 0 (- sin (0 * w) * w)) by (rewrite Rmult_0_l, sin_0 in G; now replace (- 0 * w) with 0 in G by ring); exact (derivable_pt_lim_comp (fun t => t * w) cos 0 _ _ T (derivable_pt_lim_cos (0 * w)))).
  assert (S : derivable_pt_lim (fun t => sin (t * w)) 0 w) by (enough (G : derivable_pt_lim (fun t => sin (t * w)) 0 (cos (0 * w) * w)) by (rewrite Rmult_0_l, cos_0 in G; now replace (1 * w) with w in G by ring); exact (derivable_pt_lim_comp (fun t => t * w) sin 0 _ _ T (derivable_pt_lim_sin (0 * w)))).
  assert (S' : derivable_pt_lim (fun t => - sin (t * w)) 0 (- w)) by exact (derivable_pt_lim_opp (fun t => sin (t * w)) 0 w S).
  split.
  - intros c Hc. eapply derivative_ext; [intros t; rewrite P; reflexivity|]. destruct c as [|[|[|c]]]; [| | |lia]; cbn [nth].
    + enough (G : derivable_pt_lim (fun t => s + 1 / 2 - cos (t * w) / 2) 0 (0 - (0 * / 2 + cos (0 * w) * 0))) by (now replace (0 - (0 * / 2 + cos (0 * w) * 0)) with 0 in G by ring).
      exact (derivable_pt_lim_minus (fun _ => s + 1 / 2) (fun t => cos (t * w) * / 2) 0 _ _ (derivable_pt_lim_const (s + 1 / 2) 0) (derivable_pt_lim_mult (fun t => cos (t * w)) (fun _ => / 2) 0 _ _ C (derivable_pt_lim_const (/ 2) 0))).
    + enough (G : derivable_pt_lim (fun t => - (sin (t * w) / 2)) 0 (- (w * / 2 + sin (0 * w) * 0))) by (now replace (- (w * / 2 + sin (0 * w) * 0)) with (- (w / 2)) in G by (unfold Rdiv; ring)).
      exact (derivable_pt_lim_opp (fun t => sin (t * w) * / 2) 0 _ (derivable_pt_lim_mult (fun t => sin (t * w)) (fun _ => / 2) 0 _ _ S (derivable_pt_lim_const (/ 2) 0))).
    + exact (derivable_pt_lim_const 0 0).
  - intros r c Hr Hc. eapply derivative_ext; [intros t; rewrite O; reflexivity|]. rewrite O, Rmult_0_l, cos_0, sin_0.
    destruct r as [|[|[|r]]]; [| | |lia]; (destruct c as [|[|[|c]]]; [| | |lia]); cbn [nth Nat.add Nat.mul]; unfold cross3, col3; cbn [nth Nat.add];
    match goal with
    | |- derivative_at_0 (fun t => cos _) ?g => replace g with 0 by ring; exact C
    | |- derivative_at_0 (fun t => sin _) ?g => replace g with w by ring; exact S
    | |- derivative_at_0 (fun t => - sin _) ?g => replace g with (- w) by ring; exact S'
    | |- derivative_at_0 (fun t => ?k) ?g => replace g with 0 by ring; exact (derivable_pt_lim_const k 0)
    end.
Qed.

(** The program: a frame task of gain 2 with target (s, 1, 0), unrotated. *)
Definition aside s : v3 := mkV s 1 0.
Definition away_prog s : list wop := [WNewProblem (chain [JHinge]) (tscalar (-1)) (tscalar 1); WNewComp (frame_comp None); WCop 0 (OpTargetFrame (FSE3 (tvec (q_list q_one ++ v3_list (aside s))))); WAdd 0 0].
Definition away_pd s : jdata := Eval vm_compute in result (fst (step (WCompile 0) (run (away_prog s) empty_world))).
Lemma away_compiled s : compiled_by (away_prog s) 0 (away_pd s) /\ comps_of (away_pd s) = [grip JHinge (aside s)] /\ jd_model (away_pd s) = chain [JHinge] /\ jd_vmin (away_pd s) = [-1] /\ jd_vmax (away_pd s) = [1].
Proof. split; [vm_compute; reflexivity|]. repeat split; vm_compute; reflexivity. Qed.
Lemma six (l : vec) : List.length l = 6%nat -> exists a b c d e f, l = [a; b; c; d; e; f].
Proof. do 7 (destruct l as [|? l]; try discriminate). intros _. repeat eexists. Qed.
Lemma away_weights s : exists W k, j_ext (grip JHinge (aside s)) = JTask W 0 k /\ forall l, List.length l = 6%nat -> mv W l = l.
Proof.
  eexists. eexists. split; [vm_compute; reflexivity|]. intros l Hl. destruct (six l Hl) as (a & b & c & d & e & f & ->). unfold mv, dot. cbn. repeat (apply f_equal2; [ring|]). reflexivity.
Qed.
Lemma away_gained s e : List.length e = 6%nat -> gained (grip JHinge (aside s)) e = vscale 2 e.
Proof. intros H. apply gained_uniform; [split; [vm_compute; repeat constructor|reflexivity]|]. rewrite H. reflexivity. Qed.
Lemma away_rates s D : sound_jac D -> let L := lever s D in let j := grip JHinge (aside s) in let d := update L (chain [JHinge]) [0] in
  exists J, jacobian L j d = Ok J /\ (forall w, mv J [w] = [w / 2; w / 2 - s * w; 0; 0; 0; - w]) /\ call L j d = Ok [0; 1; 0; 0; 0; 0] /\
  forall w, derivative_at_0 (fun t => sq (value_after L j [0] [w] t)) w.
Proof.
  intros HD. cbv zeta. destruct (grip_ok JHinge (aside s)) as (Hj & Ht & Em). pose proof (lever_start s D) as HP. destruct (lever_axes s D) as (J0 & HJ0 & Ew).
  assert (He : 0 < l_eps (lever s D)) by (cbn; lra).
  assert (Hn : normalised (chain [JHinge]) [0]). { intros j a [[H _]|[H _]]; destruct j as [|[|j]]; discriminate H. }
  assert (U : forall k, has_object (chain [JHinge]) OBody "tip" (Z.of_nat k) -> k = 1%nat). { intros k [H|[H|[]]]; inversion H. lia. }
  assert (W : forall y, List.length y = 1%nat -> wf_data (chain [JHinge]) (update (lever s D) (chain [JHinge]) y)) by (intros y Hy; apply (rig_wf D (arc s) _ _ JHinge y Hy)).
  destruct (frame_jac_unrotated (lever s D) None "tip" OBody (grip JHinge (aside s)) (update (lever s D) (chain [JHinge]) [0]) (aside s) HD He Hj I Ht (W [0] eq_refl) I) as (i & Ho & _ & HB). rewrite Em in Ho, HB.
  apply U in Ho. subst i. destruct (HB (mkV s 0 0) J0 [0] HP HJ0) as (J & EJ & _). exists J. split; [exact EJ|].
  assert (MV : forall w, mv J [w] = [w / 2; w / 2 - s * w; 0; 0; 0; - w]).
  { intros w. destruct (HB (mkV s 0 0) J0 [w] HP HJ0) as (J' & EJ' & _ & MV). rewrite EJ in EJ'. apply Ok_inj in EJ'. subst J'. rewrite MV. destruct (Ew w) as [-> ->]. cbn. repeat (apply f_equal2; [field|]). reflexivity. }
  split; [exact MV|].
  assert (EV : call (lever s D) (grip JHinge (aside s)) (update (lever s D) (chain [JHinge]) [0]) = Ok [0; 1; 0; 0; 0; 0]).
  { destruct (OnlyThms.frame_error_only (lever s D) "tip" OBody (grip JHinge (aside s)) (update (lever s D) (chain [JHinge]) [0]) q_one (aside s) ltac:(cbn; lra) Hj I Ht (W [0] eq_refl)) as (i & Ho & HC). rewrite Em in Ho. apply U in Ho. subst i.
    assert (I1 : q_mat q_one = m3_id) by (unfold q_mat, q_one, m3_id; cbn; f_equal; ring). rewrite I1 in HC.
    apply (HC m3_id (mkV s 0 0) HP (or_introl eq_refl) (mkV 0 1 0) v3_zero).
    - destruct (TwistThms.straight_exists (mkV 0 1 0) m3_id (mkV s 0 0)) as (Q & X & Hm & Q0 & X0). destruct (TwistThms.straight_unique _ Q X Hm 1) as [Q1 X1]. exists Q, X. split; [exact Hm|]. split; [exact Q0|]. split; [exact X0|].
      split; [now rewrite Q1|]. rewrite X1, Q0, X0. unfold v3_add, v3_scale, m3_app, m3_id, aside. cbn. f_equal; ring.
    - pose proof PI_RGT_0. unfold v3_norm2, v3_dot, v3_zero. cbn. nra. }
  split; [exact EV|]. intros w.
  destruct (frame_jacobian_defect (lever s D) None "tip" OBody (grip JHinge (aside s)) [0] [w] (aside s) HD He Hj I Ht I eq_refl eq_refl Hn W) as (i & Ho & HC). rewrite Em in Ho, HC. apply U in Ho. subst i.
  destruct (HC (mkV s 0 0) J0 (fun y _ => ex_intro _ _ (ex_intro _ _ (lever_pose s D y))) HP HJ0 ltac:(destruct (Ew w) as [-> ->]; apply lever_moves)) as (J' & EJ' & _ & V). clear HC.
  rewrite EJ in EJ'. apply Ok_inj in EJ'. subst J'. rewrite MV in V. destruct (Ew w) as [_ Ea]. rewrite Ea in V.
  assert (LV : forall t, List.length (value_after (lever s D) (grip JHinge (aside s)) [0] [w] t) = 6%nat).
  { intros t. unfold value_after, value_at. rewrite Em, go_with.
    destruct (frame_task_value (lever s D) None "tip" OBody (grip JHinge (aside s)) (update (lever s D) (chain [JHinge]) [t * w]) q_one (aside s) Hj I Ht (W [t * w] eq_refl) I) as (i & Ho & _ & _ & HV). rewrite Em in Ho. apply U in Ho. subst i.
    rewrite (HV _ _ (lever_pose s D [t * w])). reflexivity. }
  destruct (away_weights s) as (Wt & k0 & _ & HW).
  assert (V' : forall i, (i < 6)%nat -> derivable_pt_lim (fun t => nth i (value_after (lever s D) (grip JHinge (aside s)) [0] [w] t) 0) 0 (nth i [w / 2; w / 2; 0; 0; 0; - w] 0)).
  { intros i Hi. destruct (V i Hi) as (l & Dl & El). replace (nth i [w / 2; w / 2; 0; 0; 0; - w] 0) with l; [exact Dl|].
    do 6 (destruct i as [|i]; [cbn in El |- *; lra|]). lia. }
  pose proof (lim_sq (-1) 1 6 _ 0 [w / 2; w / 2; 0; 0; 0; - w] ltac:(lra) (fun s _ => LV s) eq_refl V' Wt 2) as G.
  assert (V0 : value_after (lever s D) (grip JHinge (aside s)) [0] [w] 0 = [0; 1; 0; 0; 0; 0]). { unfold value_after, value_at. rewrite Em, go_with, Rmult_0_l, EV. reflexivity. }
  rewrite V0, !HW in G by reflexivity. replace (2 * dot [0; 1; 0; 0; 0; 0] [w / 2; w / 2; 0; 0; 0; - w]) with w in G by (unfold dot; cbn; field).
  revert G. apply derivable_pt_lim_ext. intros t. rewrite HW by apply LV. field.
Qed.

Lemma away_cost s D : sound_jac D -> forall w x, total_cost (lever s D) (update (lever s D) (chain [JHinge]) [0]) (comps_of (away_pd s)) [w] x <->
  x = 1 / 2 * (w * w / 4 + ((1 / 2 - s) * w + 2) * ((1 / 2 - s) * w + 2) + w * w).
Proof.
  intros HD w x. destruct (away_compiled s) as (_ & -> & _). destruct (away_rates s D HD) as (J & EJ & MV & EV & _). destruct (away_weights s) as (W & k & Ek & HW).
  assert (G : 1 / 2 * sq (mv W (vadd (mv J [w]) (gained (grip JHinge (aside s)) [0; 1; 0; 0; 0; 0]))) + 1 / 2 * (0 * sq (mv W (gained (grip JHinge (aside s)) [0; 1; 0; 0; 0; 0]))) * sq [w] =
    1 / 2 * (w * w / 4 + ((1 / 2 - s) * w + 2) * ((1 / 2 - s) * w + 2) + w * w)).
  { rewrite MV, away_gained by reflexivity. rewrite !HW by reflexivity. unfold sq, dot, vadd, vscale. cbn. field. }
  split.
  - intros (xs & F & ->). inversion F as [|? y ? ys C Fn]; subst. inversion Fn; subst. cbn. rewrite Rplus_0_r.
    inversion C as [W' lm' k' J' e' E' EJ' Ee'|act W' k' J' e' E'|sd k' J' E'|act W' k' E']; subst; rewrite Ek in E'; try discriminate. injection E' as <- <- <-.
    rewrite EJ in EJ'. apply Ok_inj in EJ'. subst J'. rewrite EV in Ee'. apply Ok_inj in Ee'. subst e'. exact G.
  - intros ->. eexists. split; [constructor; [exact (cost_task _ _ _ [w] W 0 k J [0; 1; 0; 0; 0; 0] Ek EJ EV)|constructor]|]. cbn [vsum fold_right]. rewrite G. unfold vsum; cbn. ring.
Qed.
Lemma away_box s D w : admissible (lever s D) (update (lever s D) (chain [JHinge]) [0]) (away_pd s) [w] <-> -1 <= w <= 1.
Proof.
  destruct (away_compiled s) as (_ & Ec & Em & El & Eh). destruct (away_weights s) as (W & k & Ek & _). unfold admissible. rewrite Ec, Em, El, Eh. split.
  - intros (_ & A & B & _). inversion A; subst. inversion B; subst. cbn in *. lra.
  - intros H. split; [reflexivity|]. split; [constructor; [lra|constructor]|]. split; [constructor; [lra|constructor]|]. constructor; [|constructor]. unfold is_barrier, is_hard. rewrite Ek. split; discriminate.
Qed.
Lemma one_entry (l : vec) : List.length l = 1%nat -> exists a, l = [a].
Proof. destruct l as [|a [|]]; try discriminate. intros _. now exists a. Qed.
Lemma away_best s D : sound_jac D -> (1 / 2 - s) * (1 / 2 - s) = 1 / 4 -> forall v, best (lever s D) (update (lever s D) (chain [JHinge]) [0]) (away_pd s) v <-> v = [- (4 / 3 * (1 / 2 - s))].
Proof.
  intros HD Hs. set (c := 1 / 2 - s) in *. assert (Lo : forall v, admissible (lever s D) (update (lever s D) (chain [JHinge]) [0]) (away_pd s) v -> exists w, v = [w]).
  { intros v (Lv & _). destruct (away_compiled s) as (_ & _ & Em & _). rewrite Em in Lv. exact (one_entry v Lv). }
  assert (Bd : -1 <= - (4 / 3 * c) <= 1) by nra.
  assert (Q : forall w, w * w / 4 + (c * w + 2) * (c * w + 2) + w * w = 3 / 2 * ((w + 4 / 3 * c) * (w + 4 / 3 * c)) + 10 / 3).
  { intros w. replace ((c * w + 2) * (c * w + 2)) with ((c * c) * (w * w) + 4 * (c * w) + 4) by ring. replace ((w + 4 / 3 * c) * (w + 4 / 3 * c)) with (w * w + 8 / 3 * (c * w) + 16 / 9 * (c * c)) by field. rewrite Hs. field. }
  intros v. split.
  - intros (Av & x & Tx & Bx). destruct (Lo v Av) as (w & ->). apply (away_cost s D HD) in Tx. fold c in Tx. rewrite Q in Tx.
    destruct (Bx [- (4 / 3 * c)]) as (y & Ty & Ly); [now apply away_box|]. apply (away_cost s D HD) in Ty. fold c in Ty. rewrite Q in Ty. replace (- (4 / 3 * c) + 4 / 3 * c) with 0 in Ty by ring.
    assert (Z : (w + 4 / 3 * c) * (w + 4 / 3 * c) <= 0) by nra. f_equal. nra.
  - intros ->. split; [now apply away_box|]. eexists. split; [apply (away_cost s D HD); reflexivity|]. fold c. rewrite Q. intros u Au. destruct (Lo u Au) as (w & ->). eexists. split; [apply (away_cost s D HD); reflexivity|]. fold c. rewrite Q.
    replace (- (4 / 3 * c) + 4 / 3 * c) with 0 by ring. pose proof (Rle_0_sqr (w + 4 / 3 * c)) as P. unfold Rsqr in P. lra.
Qed.
Lemma away_tidy s : tidy (chain [JHinge]) (away_prog s).
Proof.
  split; [apply chain_sound|]. split; [repeat constructor; eapply made_frame_task; exact (frame_comp_new None)|]. split; [repeat (constructor; [first [exact I|reflexivity]|]); constructor|].
  split; [repeat constructor|]. split; [repeat (constructor; [first [exact I|reflexivity|split; [reflexivity|first [exact I|reflexivity]]]|]); constructor|].
  intros k o Hk Hb. do 4 (destruct k as [|k]; [injection Hk as <-; first [contradiction | left; eexists; vm_compute; reflexivity]|]). destruct k; discriminate.
Qed.
Lemma away_refuted D : sound_jac D -> exists L os pd j v l, l_jacrev L = D /\ tidy (j_model j) os /\ compiled_by os 0 pd /\ comps_of pd = [j] /\ frame_task None "tip" OBody j /\ target_frame_is j q_one (mkV 1 1 0) /\ uniform 2 j /\
  (forall y, List.length y = 1%nat -> wf_data (j_model j) (update L (j_model j) y) /\ pose_is (update L (j_model j) y) OBody 1 (turn_z (nth 0 y 0)) (arc 1 y)) /\
  admissible L (update L (j_model j) [0]) pd [0] /\ (forall u, best L (update L (j_model j) [0]) pd u <-> u = v) /\
  derivative_at_0 (fun t => sq (value_after L j [0] v t)) l /\ l = 2 / 3.
Proof.
  intros HD. destruct (grip_ok JHinge (aside 1)) as (Hj & Ht & Em). destruct (away_compiled 1) as (Hc & Ec & _). destruct (away_rates 1 D HD) as (_ & _ & _ & _ & Dv).
  exists (lever 1 D), (away_prog 1), (away_pd 1), (grip JHinge (aside 1)), [- (4 / 3 * (1 / 2 - 1))], (- (4 / 3 * (1 / 2 - 1))). rewrite Em. split; [reflexivity|]. split; [apply away_tidy|]. split; [exact Hc|]. split; [exact Ec|]. split; [exact Hj|]. split; [exact Ht|].
  split; [split; [vm_compute; repeat constructor|reflexivity]|]. split; [intros y Hy; split; [apply (rig_wf D (arc 1) _ _ JHinge y Hy)|apply lever_pose]|].
  split; [apply away_box; lra|]. split; [apply (away_best 1 D HD); field|]. split; [apply Dv|field].
Qed.
(** The same lever, moved so that the body starts in the origin. *)
Lemma near_case D : sound_jac D -> let L := lever 0 D in let pd := away_pd 0 in let j := grip JHinge (mkV 0 1 0) in let m := j_model j in let v := [- (2 / 3)] in
  0 < l_eps L /\ frame_task None "tip" OBody j /\ target_frame_is j q_one (mkV 0 1 0) /\ comps_of pd = [j] /\ jd_model pd = m /\ uniform 2 j /\ nonneg_weights j /\ normalised m [0] /\
  (forall y, List.length y = m_nq m -> wf_data m (update L m y)) /\ best L (update L m [0]) pd v /\ admissible L (update L m [0]) pd (vzero (m_nv m)) /\
  (forall i, has_object m OBody "tip" (Z.of_nat i) -> i = 1%nat) /\ (forall y, List.length y = m_nq m -> exists M x, pose_is (update L m y) OBody 1 M x) /\ pose_is (update L m [0]) OBody 1 m3_id (mkV 0 0 0) /\
  exists J0, get_frame_jacobian_world_aligned m (update L m [0]) (Z.of_nat 1) OBody = Ok J0 /\ moves_with (data_after L m [0] v) OBody 1 (linear_velocity J0 v) (angular_velocity J0 v) /\
    angular_velocity J0 v = [0; 0; - (2 / 3)] /\ cross3 (v3_list (mkV 0 0 0)) (angular_velocity J0 v) = [0; 0; 0] /\ derivative_at_0 (fun t => sq (value_after L j [0] v t)) (- (2 / 3)).
Proof.
  intros HD. cbv zeta. destruct (grip_ok JHinge (aside 0)) as (Hj & Ht & Em). destruct (away_compiled 0) as (_ & Ec & Ecm & _). destruct (away_rates 0 D HD) as (_ & _ & _ & _ & Dv). destruct (lever_axes 0 D) as (J0 & HJ0 & Ew).
  change (mkV 0 1 0) with (aside 0). rewrite Em. split; [cbn; lra|]. split; [exact Hj|]. split; [exact Ht|]. split; [exact Ec|]. split; [exact Ecm|].
  split; [split; [vm_compute; repeat constructor|reflexivity]|]. split; [destruct (away_weights 0) as (W & k & Ek & _); unfold nonneg_weights; rewrite Ek; lra|].
  split; [intros j a [[H _]|[H _]]; destruct j as [|[|j]]; discriminate H|]. split; [intros y Hy; apply (rig_wf D (arc 0) _ _ JHinge y Hy)|].
  split; [apply (away_best 0 D HD); [field|do 2 f_equal; field]|]. split; [apply (away_box 0 D 0); lra|]. split; [intros k [H|[H|[]]]; inversion H; lia|].
  split; [intros y Hy; do 2 eexists; apply lever_pose|]. split; [apply lever_start|]. exists J0. split; [exact HJ0|]. destruct (Ew (- (2 / 3))) as [-> ->]. split; [apply lever_moves|]. split; [reflexivity|].
  split; [unfold cross3; cbn [nth v3_list vx vy vz]; repeat (apply f_equal2; [ring|]); reflexivity|]. apply Dv.
Qed.
