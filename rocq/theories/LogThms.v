(** The frame task's Jacobian at unrotated frames. *)
From Coq Require Import Lia.
From Verif Require Import Base Lin Mjx Typing Component SpecComponent SpecJoint SpecHistory SpecMotion SpecConf Rot Conf FrameJac JaxComponents SpecTree SpecShape SpecValue SpecDeriv.
From Verif Require Import LinFacts MotionFacts2 TreeFacts FrameFacts ConfFacts ConfFacts3 ConfFacts4 ValueFacts ValueFacts3 ValueFacts4 ValueThms2 FitFacts DerivFacts DerivThms LogFacts LogFacts2.
Open Scope R_scope.

Lemma rows6 J : Forall (fun r => List.length r = 6%nat) J -> map (fun row => rotate_back (m3_list m3_id) (firstn 3 row) ++ rotate_back (m3_list m3_id) (skipn 3 row)) J = J.
Proof.
  intros H. induction H as [|r J Hr _ IH]; [reflexivity|]. cbn [map]. rewrite IH. f_equal.
  do 6 (destruct r as [|? r]; [discriminate|]). destruct r; [|discriminate]. cbn. repeat (apply f_equal2; [ring|]). reflexivity.
Qed.
Lemma twist_of J v : mv (tr 6 J) v = linear_velocity J v ++ angular_velocity J v.
Proof. unfold tr. reflexivity. Qed.
Lemma inverse_pair x p : se3_mul (se3_inv (mkS q_one p)) (se3_inv (mkS (from_matrix m3_id) x)) = mkS q_one (v3_neg (v3_add p x)).
Proof.
  assert (C : q_conj q_one = q_one) by (unfold q_conj, q_one; cbn [qw qx qy qz]; f_equal; ring).
  rewrite from_matrix_id. unfold se3_mul, se3_inv. cbn [s_rot s_pos]. rewrite C, q_mul_one_l, !q_app_one. destruct x as [xa xb xc], p as [pa pb pc]. unfold v3_add, v3_neg. cbn [vx vy vz]. f_equal. f_equal; ring.
Qed.
Lemma frame_jac_unrotated L mk on ty j d p : sound_jac (l_jacrev L) -> 0 < l_eps L -> frame_task mk on ty j -> has_pose ty -> target_frame_is j q_one p -> wf_data (j_model j) d -> mask_within 6 mk ->
  exists i, has_object (j_model j) ty on (Z.of_nat i) /\ (i < count (j_model j) ty)%nat /\ forall x J0 v, pose_is d ty i m3_id x -> get_frame_jacobian_world_aligned (j_model j) d (Z.of_nat i) ty = Ok J0 ->
   exists J, jacobian L j d = Ok J /\ List.length J = List.length (axes 6 mk) /\
   mv J v = coords (axes 6 mk) (mv (mneg (log_rows (v3_neg (v3_add p x)))) (linear_velocity J0 v ++ angular_velocity J0 v)).
Proof.
  intros HD He Hj Hp (Hq & W' & lm' & o' & ty' & E') Hd Hmk. destruct (frame_task_facts _ _ _ _ Hj) as (S & D & Mi & G & W & lm & t & i & E & Ho).
  destruct (named_object _ _ _ _ S Hp Ho) as (k & -> & Hk). exists k. split; [exact Ho|]. split; [exact Hk|]. intros x J0 v HP HJ0.
  rewrite E in E'. injection E' as -> -> <- <- ->. pose proof S as (Hm & _).
  destruct (world_jacobian (j_model j) d Hm Hd ty k Hk) as (cd & mk0 & p0 & c & _ & _ & _ & _ & _ & _ & _ & EJ). rewrite HJ0 in EJ. apply FrameFacts.Ok_inj in EJ.
  assert (R6 : Forall (fun r => List.length r = 6%nat) J0) by (rewrite EJ; apply Forall_forall; intros r Hr; apply in_map_iff in Hr; destruct Hr as (z & <- & _); reflexivity).
  destruct (local_jacobian (j_model j) d Hm Hd ty k _ Hk HJ0) as (F & EF & F'). destruct HP as (HR & Eo & Ep). rewrite Eo, (rows6 _ R6) in F'. subst F.
  unfold jacobian. rewrite E. unfold jac_frame. destruct p as [pa pb pc]. cbn [bind vec_of ndim t_shape tvec List.length t_data q_list v3_list app qw qx qy qz vx vy vz q_one se3_of].
  rewrite (pose_frame _ _ _ _ m3_id x Hd Hp Hk (conj HR (conj Eo Ep))). cbn [bind]. rewrite EF. cbn [bind].
  change (mkQ 1 0 0 0) with q_one. rewrite inverse_pair. change (vzero 6) with O6. rewrite log_jacobian by assumption. cbn [bind]. cbv zeta.
  set (N := mm _ _ _). assert (LN : List.length N = 6%nat) by (unfold N, mm; rewrite map_length; reflexivity). rewrite Mi.
  rewrite (gather_in N (axes 6 mk) []); [|rewrite LN; exact (axes_within 6 mk Hmk)]. eexists. split; [reflexivity|]. split; [apply map_length|].
  unfold coords, mv at 1. rewrite map_map. apply map_ext_in. intros a Ha. pose proof (axes_within 6 mk Hmk) as Hax. rewrite Forall_forall in Hax. specialize (Hax a Ha).
  rewrite <- twist_of, <- (mv_nth N) by (rewrite LN; exact Hax). unfold N. rewrite mv_mm by (apply Forall_forall; intros r Hr; unfold tr in Hr; apply in_map_iff in Hr; destruct Hr as (z & <- & _); apply map_length). reflexivity.
Qed.

Lemma nth_coords as_ x k : (k < List.length as_)%nat -> nth k (coords as_ x) 0 = nth (nth k as_ 0%nat) x 0.
Proof. revert k. induction as_ as [|a l IH]; intros [|k] H; cbn in *; try lia; [reflexivity|]. apply IH. lia. Qed.
(** What the Jacobian reports differs from the derivative by the cross product of the
    frame's position and its angular velocity. *)
Theorem frame_jacobian_defect L mk on ty j q v p : let m := j_model j in sound_jac (l_jacrev L) -> 0 < l_eps L -> frame_task mk on ty j -> has_pose ty -> target_frame_is j q_one p -> mask_within 6 mk ->
  List.length q = m_nq m -> List.length v = m_nv m -> normalised m q -> (forall y, List.length y = m_nq m -> wf_data m (update L m y)) ->
  exists i, has_object m ty on (Z.of_nat i) /\ forall x J0, (forall y, List.length y = m_nq m -> exists M x, pose_is (update L m y) ty i M x) ->
    pose_is (update L m q) ty i m3_id x -> get_frame_jacobian_world_aligned m (update L m q) (Z.of_nat i) ty = Ok J0 ->
    moves_with (data_after L m q v) ty i (linear_velocity J0 v) (angular_velocity J0 v) ->
    exists J, jacobian L j (update L m q) = Ok J /\ List.length J = List.length (axes 6 mk) /\
    forall k, (k < List.length (axes 6 mk))%nat -> exists l, derivative_at_0 (fun t => nth k (value_after L j q v t) 0) l /\
      nth k (mv J v) 0 = l + nth (nth k (axes 6 mk) 0%nat) (cross3 (v3_list x) (angular_velocity J0 v) ++ [0; 0; 0]) 0.
Proof.
  cbv zeta. intros HD He Hj Hp Ht Hmk Hq Hv Hn Hwf. set (m := j_model j) in *.
  destruct (frame_jac_unrotated L mk on ty j (update L m q) p HD He Hj Hp Ht (Hwf q Hq) Hmk) as (i & Ho & Hi & HJ). exists i. split; [exact Ho|].
  intros x J0 Hpose HP HJ0 [MP MO]. destruct (HJ x J0 v HP HJ0) as (J & EJ & LJ & VJ). exists J. split; [exact EJ|]. split; [exact LJ|].
  destruct (frame_task_facts _ _ _ _ Hj) as (S & _). pose proof S as (Hm & _). pose proof (sound_wf _ S) as Hw. fold m in S, Hm, Hw.
  assert (A : forall t, exists q', integrate m q v t = Ok q' /\ List.length q' = m_nq m) by (intros t; now apply integrate_length).
  assert (A0 : data_after L m q v 0 = update L m q) by (unfold data_after; now rewrite integrate_now).
  (* the pose along the motion *)
  assert (PP : forall t, exists M x, pose_is (data_after L m q v t) ty i M x).
  { intros t. unfold data_after. destruct (A t) as (q' & -> & Lq'). now apply Hpose. }
  set (ent := fun k t => nth k (orientation (data_after L m q v t) ty i) 0). set (pos := fun k t => nth k (position (data_after L m q v t) ty i) 0).
  set (M := fun t => mkM3 (ent 0%nat t) (ent 1%nat t) (ent 2%nat t) (ent 3%nat t) (ent 4%nat t) (ent 5%nat t) (ent 6%nat t) (ent 7%nat t) (ent 8%nat t)).
  set (X := fun t => mkV (pos 0%nat t) (pos 1%nat t) (pos 2%nat t)).
  assert (PX : forall t, pose_is (data_after L m q v t) ty i (M t) (X t)).
  { intros t. destruct (PP t) as (M' & x' & (HR & Eo & Ep)). assert (M t = M') by (unfold M, ent; rewrite Eo; now destruct M'). assert (X t = x') by (unfold X, pos; rewrite Ep; now destruct x'). subst M' x'. repeat split; auto; apply HR. }
  destruct HP as (HR & Eo & Ep).
  assert (V : forall t k, (k < List.length (axes 6 mk))%nat -> nth k (value_after L j q v t) 0 = nth (nth k (axes 6 mk) 0%nat) (frame_error (l_eps L) (M t) (X t) q_one p) 0).
  { intros t k Hk. destruct (A t) as (q' & Eq & Lq'). unfold value_after, value_at. fold m. rewrite Eq.
    destruct (frame_task_value L mk on ty j (update L m q') q_one p Hj Hp Ht (Hwf q' Lq') Hmk) as (i' & Ho' & _ & _ & HV).
    assert (i' = i). { destruct S as (_ & _ & _ & WN & _). destruct WN as (_ & U). specialize (U _ _ _ _ Ho Ho'). lia. } subst i'.
    specialize (PX t). unfold data_after in PX. rewrite Eq in PX. rewrite (HV _ _ PX). now apply nth_coords. }
  set (lin := linear_velocity J0 v) in *. set (w := angular_velocity J0 v) in *.
  set (l3 := mkV (nth 0 lin 0) (nth 1 lin 0) (nth 2 lin 0)). set (w3 := mkV (nth 0 w 0) (nth 1 w 0) (nth 2 w 0)).
  assert (O0 : orientation (data_after L m q v 0) ty i = m3_list m3_id) by now rewrite A0.
  assert (X0 : position (data_after L m q v 0) ty i = v3_list x) by now rewrite A0.
  assert (DO : forall r c k cst l, (r < 3)%nat -> (c < 3)%nat -> k = (3 * r + c)%nat -> nth k (m3_list m3_id) 0 = cst -> nth r (cross3 w (col3 (m3_list m3_id) c)) 0 = l -> dv (ent k) cst l).
  { intros r c k cst l Hr Hc -> <- <-. split; [unfold ent; now rewrite O0|]. specialize (MO r c Hr Hc). rewrite O0 in MO. exact MO. }
  assert (DP : forall k cst l, (k < 3)%nat -> nth k (v3_list x) 0 = cst -> nth k lin 0 = l -> dv (pos k) cst l).
  { intros k cst l Hk <- <-. split; [unfold pos; now rewrite X0|]. now apply MP. }
  intros k Hk. exists (nth (nth k (axes 6 mk) 0%nat) (err' p l3 w3 x) 0). pose proof (axes_within 6 mk Hmk) as Hax. rewrite Forall_forall in Hax. assert (Ha : (nth k (axes 6 mk) 0 < 6)%nat) by (apply Hax, nth_In; exact Hk).
  split.
  - eapply derivative_ext; [intros t; symmetry; now apply V|].
    apply (frame_error_rate (l_eps L) M X p l3 w3 He); try exact Ha; unfold M, X; cbn [m00 m01 m02 m10 m11 m12 m20 m21 m22 vx vy vz l3 w3].
    1: apply (DO 0%nat 0%nat); auto; cbn; ring.
    1: apply (DO 0%nat 1%nat); auto; cbn; ring.
    1: apply (DO 0%nat 2%nat); auto; cbn; ring.
    1: apply (DO 1%nat 0%nat); auto; cbn; ring.
    1: apply (DO 1%nat 1%nat); auto; cbn; ring.
    1: apply (DO 1%nat 2%nat); auto; cbn; ring.
    1: apply (DO 2%nat 0%nat); auto; cbn; ring.
    1: apply (DO 2%nat 1%nat); auto; cbn; ring.
    1: apply (DO 2%nat 2%nat); auto; cbn; ring.
    all: apply DP; auto; lia.
  - rewrite VJ, nth_coords by exact Hk. fold lin w.
    assert (El : lin = v3_list l3) by reflexivity. assert (Ew : w = v3_list w3) by reflexivity. clearbody l3 w3. rewrite El, Ew. clear. destruct l3 as [l0 l1 l2], w3 as [w0 w1 w2], p as [p0 p1 p2], x as [x0 x1 x2].
    generalize (nth k (axes 6 mk) 0%nat). intros a. do 6 (destruct a as [|a]; [unfold err', gap; cbn; field|]). 
    unfold err'. cbn. destruct a; ring.
Qed.
Theorem frame_jacobian_exact L mk on ty j q v p : let m := j_model j in sound_jac (l_jacrev L) -> 0 < l_eps L -> frame_task mk on ty j -> has_pose ty -> target_frame_is j q_one p -> mask_within 6 mk ->
  List.length q = m_nq m -> List.length v = m_nv m -> normalised m q -> (forall y, List.length y = m_nq m -> wf_data m (update L m y)) ->
  exists i, has_object m ty on (Z.of_nat i) /\ forall x J0, (forall y, List.length y = m_nq m -> exists M x, pose_is (update L m y) ty i M x) ->
    pose_is (update L m q) ty i m3_id x -> get_frame_jacobian_world_aligned m (update L m q) (Z.of_nat i) ty = Ok J0 ->
    moves_with (data_after L m q v) ty i (linear_velocity J0 v) (angular_velocity J0 v) -> cross3 (v3_list x) (angular_velocity J0 v) = [0; 0; 0] ->
    exists J, jacobian L j (update L m q) = Ok J /\ List.length J = List.length (axes 6 mk) /\
    forall k, (k < List.length (axes 6 mk))%nat -> derivative_at_0 (fun t => nth k (value_after L j q v t) 0) (nth k (mv J v) 0).
Proof.
  cbv zeta. intros HD He Hj Hp Ht Hmk Hq Hv Hn Hwf. destruct (frame_jacobian_defect L mk on ty j q v p HD He Hj Hp Ht Hmk Hq Hv Hn Hwf) as (i & Ho & H). exists i. split; [exact Ho|].
  intros x J0 A B C D E. destruct (H x J0 A B C D) as (J & E1 & E2 & E3). exists J. split; [exact E1|]. split; [exact E2|]. intros k Hk. destruct (E3 k Hk) as (l & Hl & ->). rewrite E.
  replace (nth (nth k (axes 6 mk) 0%nat) ([0; 0; 0] ++ [0; 0; 0]) 0) with 0; [now rewrite Rplus_0_r|].
  generalize (nth k (axes 6 mk) 0%nat). intros a. do 6 (destruct a as [|a]; [reflexivity|]). now destruct a.
Qed.
