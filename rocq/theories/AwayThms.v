(** C126: where the reported rates are right, a lone task does not move away from its target. *)
From Coq Require Import Lia.
From Verif Require Import Base Lin LinFacts Mjx Typing Component Problem SpecComponent SpecJoint SpecHistory SpecMotion SpecConf Rot Conf FrameJac JaxComponents LocalIK SpecTree SpecShape SpecValue SpecDeriv SpecQP SpecSolve SpecDescent SpecFit.
From Verif Require Import ValueFacts FrameFacts QPFacts ValueFacts3 ValueThms MotionFacts2 ConfFacts ConfFacts4 ValueFacts4 FitFacts DerivFacts DerivThms DerivThms2 LogFacts2 LogThms RightThms2 DescentFacts DescentFacts2.
Open Scope R_scope.

Theorem lone_descends L pd j q v g n J : comps_of pd = [j] -> seeks j = true -> uniform g j -> nonneg_weights j -> well_shaped L (m_nv (jd_model pd)) (update L (j_model j) q) j ->
  best L (update L (j_model j) q) pd v -> admissible L (update L (j_model j) q) pd (vzero (m_nv (jd_model pd))) ->
  integrate (j_model j) q v 0 = Ok q -> (forall t, List.length (value_after L j q v t) = n) -> call L j (update L (j_model j) q) = Ok (value_after L j q v 0) ->
  jacobian L j (update L (j_model j) q) = Ok J -> (forall k, (k < n)%nat -> derivative_at_0 (fun t => nth k (value_after L j q v t) 0) (nth k (mv J v) 0)) ->
  exists l, derivative_at_0 (fun t => g / 2 * sq (mv (weight_of j) (value_after L j q v t))) l /\ l <= - sq (mv (weight_of j) (mv J v)).
Proof.
  intros Hc Hs Hu Hn Hw Hb H0 Hi Hl He HJ Hr. destruct (Hw J _ HJ He) as [[LJ _] Lg]. rewrite Hl in LJ.
  destruct (best_progress L _ pd v Hb H0) as (ps & Fp & Hp); [rewrite Hc; now constructor|rewrite Hc; now constructor|].
  rewrite Hc in Fp. inversion Fp as [|? p ? ps' P Fn]; subst. inversion Fn; subst. cbn in Hp. inversion P as [J' e' _ HJ' He'|S']; subst; [|congruence].
  rewrite HJ in HJ'. injection HJ' as <-. rewrite He in He'. injection He' as <-. cbn in Hp. rewrite (gained_uniform g j _ Hu Lg), mv_scaled, dot_vscale_l in Hp.
  exists (g * dot (mv (weight_of j) (value_after L j q v 0)) (mv (weight_of j) (mv J v))). split; [|lra].
  apply (lim_sq (-1) 1 (List.length J) _ 0 (mv J v)); [lra|intros s _; now rewrite Hl|now rewrite mv_length|]. intros i Hi'. apply Hr. lia.
Qed.
Lemma gather_rows {A} (l : list A) idx r (P : A -> Prop) : jx_gather l idx = Ok r -> Forall P l -> Forall P r.
Proof.
  destruct l as [|a l]; intros E H.
  - unfold jx_gather in E. apply QPFacts.mapM_ok in E. induction E as [|x y xs ys Hx E IH]; [constructor|]. unfold jx_idx in Hx. destruct (Z.to_nat _); discriminate.
  - destruct (gather_total (a :: l) idx P ltac:(discriminate) H) as (r' & E' & _ & F). rewrite E in E'. now injection E' as <-.
Qed.
Lemma frame_shape L mk on ty j d q p : frame_task mk on ty j -> has_pose ty -> target_frame_is j q p -> wf_data (j_model j) d -> mask_within 6 mk ->
  exists i, has_object (j_model j) ty on (Z.of_nat i) /\ forall M x, pose_is d ty i M x -> well_shaped L (m_nv (j_model j)) d j.
Proof.
  intros Hj Hp Ht Hd Hmk. destruct (frame_task_value L mk on ty j d q p Hj Hp Ht Hd Hmk) as (i & Hi & Hc & _ & HV). exists i. split; [exact Hi|]. intros M x HP J e EJ Ee.
  rewrite (HV M x HP) in Ee. injection Ee as <-. destruct (frame_task_facts _ _ _ _ Hj) as (S & D & Mi & G & W & lm & t & k & E & Ho). unfold coords. rewrite map_length. split; [|exact G].
  destruct (named_object _ _ _ _ S Hp Ho) as (k' & -> & Hk). pose proof S as (Hm & _).
  unfold jacobian in EJ. rewrite E in EJ. unfold jac_frame in EJ. destruct (vec_of t) as [tl|]; [|discriminate]. cbn [bind] in EJ. destruct (se3_of tl) as [T|]; [|discriminate]. cbn [bind] in EJ.
  destruct (get_frame d (Z.of_nat k') ty) as [f|]; [|discriminate]. cbn [bind] in EJ.
  destruct (FrameFacts.world_jacobian (j_model j) d Hm Hd ty k' Hk) as (cd & mk0 & p0 & c & _ & _ & _ & _ & _ & _ & _ & EW).
  destruct (FrameFacts.local_jacobian (j_model j) d Hm Hd ty k' _ Hk EW) as (F & EF & F'). rewrite EF in EJ. cbn [bind] in EJ.
  destruct (l_jacrev L _ (vzero 6)) as [Jl|]; [|discriminate]. cbn [bind] in EJ. cbv zeta in EJ.
  assert (LF : List.length F = m_nv (j_model j)) by (rewrite F'; now rewrite !map_length, seq_length). rewrite LF, Mi in EJ. split.
  - apply FrameFacts.mapM_length in EJ. now rewrite map_length in EJ.
  - apply (gather_rows _ _ _ (fun r => List.length r = m_nv (j_model j)) EJ). unfold mm. apply Forall_map, Forall_forall. intros r _. apply vm_length. rewrite <- LF. apply tr_is_mat.
Qed.
Theorem frame_descends L mk on ty pd j q v p g : let m := j_model j in sound_jac (l_jacrev L) -> 0 < l_eps L -> frame_task mk on ty j -> has_pose ty -> target_frame_is j q_one p -> mask_within 6 mk ->
  comps_of pd = [j] -> jd_model pd = m -> uniform g j -> nonneg_weights j ->
  List.length q = m_nq m -> normalised m q -> (forall y, List.length y = m_nq m -> wf_data m (update L m y)) ->
  best L (update L m q) pd v -> admissible L (update L m q) pd (vzero (m_nv m)) ->
  exists i, has_object m ty on (Z.of_nat i) /\ forall x J0, (forall y, List.length y = m_nq m -> exists M x, pose_is (update L m y) ty i M x) ->
    pose_is (update L m q) ty i m3_id x -> get_frame_jacobian_world_aligned m (update L m q) (Z.of_nat i) ty = Ok J0 ->
    moves_with (data_after L m q v) ty i (linear_velocity J0 v) (angular_velocity J0 v) ->
    cross3 (v3_list x) (angular_velocity J0 v) = [0; 0; 0] ->
    exists l, derivative_at_0 (fun t => g / 2 * sq (mv (weight_of j) (value_after L j q v t))) l /\ l <= 0.
Proof.
  cbv zeta. intros HD He Hj Hp Ht Hmk Hc Em Hu Hn Hq Hnq Hwf Hb H0. assert (Lv : List.length v = m_nv (j_model j)) by (rewrite <- Em; exact (proj1 (proj1 Hb))).
  destruct (frame_right_iff L mk on ty j q v p HD He Hj Hp Ht Hmk Hq Lv Hnq Hwf) as (i & Hi & HR). exists i. split; [exact Hi|]. intros x J0 HP HP0 HJ0 HM HX.
  destruct (HR x J0 HP HP0 HJ0 HM) as (J & EJ & LJ & R). destruct (frame_task_facts _ _ _ _ Hj) as (S & _ & _ & _ & W & lm & t & k & E & _). pose proof (sound_wf _ S) as Hw.
  destruct (frame_shape L mk on ty j (update L (j_model j) q) q_one p Hj Hp Ht (Hwf q Hq) Hmk) as (i' & Hi' & HS). rewrite <- (ValueThms.unique_object _ _ _ _ _ S Hi Hi') in HS. specialize (HS _ _ HP0).
  assert (V : forall y, List.length y = m_nq (j_model j) -> exists e, call L j (update L (j_model j) y) = Ok e /\ List.length e = List.length (axes 6 mk)).
  { intros y Hy. destruct (frame_task_value L mk on ty j (update L (j_model j) y) q_one p Hj Hp Ht (Hwf y Hy) Hmk) as (i2 & Hi2 & _ & _ & HV). rewrite <- (ValueThms.unique_object _ _ _ _ _ S Hi Hi2) in HV.
    destruct (HP y Hy) as (M & x' & P). eexists. split; [exact (HV M x' P)|]. apply map_length. }
  assert (I0 : integrate (j_model j) q v 0 = Ok q) by now apply integrate_now.
  destruct (lone_descends L pd j q v g (List.length (axes 6 mk)) J Hc) as (l & Dl & Ll); auto.
  - unfold seeks. now rewrite E.
  - now rewrite Em.
  - now rewrite Em.
  - intros s. unfold value_after, value_at. destruct (integrate_length (j_model j) q v s Hw Hq Lv) as (q' & -> & Lq'). now destruct (V q' Lq') as (e & -> & Le).
  - unfold value_after, value_at. rewrite I0. now destruct (V q Hq) as (e & -> & Le).
  - intros a Ha. apply R; [exact Ha|]. rewrite HX. destruct (nth a (axes 6 mk) 0%nat) as [|[|[|[|[|[|[|b]]]]]]]; reflexivity.
  - exists l. split; [exact Dl|]. pose proof (QPThms3.sq_nonneg (mv (weight_of j) (mv J v))). lra.
Qed.
