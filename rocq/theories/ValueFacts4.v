(** The error of a frame task. *)
From Verif Require Import Base Lin LinFacts Mjx Typing Component SpecComponent SpecShape Rot Conf SpecConf FrameJac JaxComponents SpecValue.
From Verif Require Import MotionFacts2 ConfFacts ConfFacts2 FrameFacts RotFacts ValueFacts ValueFacts3.
Open Scope R_scope.

Lemma m3_eta M : mkM3 (m00 M) (m01 M) (m02 M) (m10 M) (m11 M) (m12 M) (m20 M) (m21 M) (m22 M) = M. Proof. now destruct M. Qed.
Lemma m3_mul_assoc A B C : m3_mul (m3_mul A B) C = m3_mul A (m3_mul B C).
Proof. unfold m3_mul. cbn. f_equal; ring. Qed.
Lemma m3_tr_mul A B : m3_tr (m3_mul A B) = m3_mul (m3_tr B) (m3_tr A).
Proof. unfold m3_mul, m3_tr. cbn. f_equal; ring. Qed.
Lemma m3_mul_id_l A : m3_mul m3_id A = A.
Proof. destruct A. unfold m3_mul, m3_id. cbn. f_equal; ring. Qed.
Lemma m3_app_mul A B v : m3_app (m3_mul A B) v = m3_app A (m3_app B v).
Proof. unfold m3_mul, m3_app. cbn. f_equal; ring. Qed.
Lemma m3_app_id v : m3_app m3_id v = v.
Proof. destruct v. unfold m3_app, m3_id. cbn. f_equal; ring. Qed.
Lemma m3_app_sub A u v : m3_app A (v3_sub u v) = v3_sub (m3_app A u) (m3_app A v).
Proof. unfold m3_app, v3_sub. cbn. f_equal; ring. Qed.
Lemma m3_det_mul A B : m3_det (m3_mul A B) = m3_det A * m3_det B.
Proof. unfold m3_det, m3_mul. cbn. ring. Qed.
Lemma rotation_mul A B : is_rotation A -> is_rotation B -> is_rotation (m3_mul A B).
Proof.
  intros (A1 & A2 & A3) (B1 & B2 & B3). split; [|split].
  - rewrite m3_tr_mul, m3_mul_assoc, <- (m3_mul_assoc (m3_tr A)), A1, m3_mul_id_l. exact B1.
  - rewrite m3_tr_mul, m3_mul_assoc, <- (m3_mul_assoc B), B2, m3_mul_id_l. exact A2.
  - rewrite m3_det_mul, A3, B3. ring.
Qed.

Lemma q_norm2_mul a b : q_norm2 (q_mul a b) = q_norm2 a * q_norm2 b.
Proof. unfold q_norm2, q_mul. cbn [qw qx qy qz]. ring. Qed.
Lemma q_app_mat q v : q_norm2 q = 1 -> q_app q v = m3_app (q_mat q) v.
Proof.
  destruct q as [w x y z], v as [a b c]. unfold q_norm2, q_app, q_mul, q_conj, q_pure, q_im, q_mat, m3_app. cbn [qw qx qy qz vx vy vz m00 m01 m02 m10 m11 m12 m20 m21 m22].
  intros H. assert (Hw : w * w = 1 - x * x - y * y - z * z) by lra. f_equal; ring [Hw].
Qed.
Lemma q_mat_mul a b : q_norm2 a = 1 -> q_norm2 b = 1 -> q_mat (q_mul a b) = m3_mul (q_mat a) (q_mat b).
Proof.
  destruct a as [w x y z], b as [s t u v]. unfold q_norm2, q_mul, q_mat, m3_mul. cbn [qw qx qy qz m00 m01 m02 m10 m11 m12 m20 m21 m22].
  intros H H'. assert (Hw : w * w = 1 - x * x - y * y - z * z) by lra. assert (Hs : s * s = 1 - t * t - u * u - v * v) by lra. f_equal; ring [Hw Hs].
Qed.
Lemma q_mat_conj a : q_mat (q_conj a) = m3_tr (q_mat a).
Proof. unfold q_mat, q_conj, m3_tr. cbn. f_equal; ring. Qed.
Lemma q_mat_inj a b : q_norm2 a = 1 -> q_norm2 b = 1 -> (q_mat a = q_mat b <-> same_rotation a b).
Proof.
  intros Ha Hb. split.
  - intros E. apply relative_rotation; try assumption.
    assert (Hc : q_norm2 (q_conj a) = 1) by now rewrite q_norm2_conj.
    assert (M : q_mat (q_mul (q_conj a) b) = m3_id).
    { rewrite q_mat_mul by assumption. rewrite <- E, <- q_mat_mul by assumption. rewrite q_mul_conj_l by assumption. unfold q_mat, q_one, m3_id. cbn. f_equal; ring. }
    remember (q_mul (q_conj a) b) as c. destruct c as [w x y z]. unfold q_mat, m3_id in M. cbn in M. injection M as M0 M1 M2 M3 M4 M5 M6 M7 M8.
    unfold q_im, v3_zero. cbn. f_equal; nra.
  - intros [->| ->]; [reflexivity|]. unfold q_mat, q_neg. cbn. f_equal; ring.
Qed.
Lemma q_mat_trace q : q_norm2 q = 1 -> trace (q_mat q) = 4 * (qw q * qw q) - 1.
Proof. destruct q as [w x y z]. unfold q_norm2, q_mat, trace. cbn. lra. Qed.

(** The logarithm does not see the sign of the quaternion, except at half turns. *)
Lemma so3_log_neg eps q : qw q <> 0 -> so3_log eps (q_neg q) = so3_log eps q.
Proof.
  intros Hw. destruct q as [w x y z]. cbn in Hw. unfold so3_log.
  assert (F : so3_factor eps (q_neg (mkQ w x y z)) = - so3_factor eps (mkQ w x y z)).
  { unfold so3_factor, q_neg, q_im, v3_norm2, v3_dot. cbn [qw qx qy qz vx vy vz]. replace (- x * - x + - y * - y + - z * - z) with (x * x + y * y + z * z) by ring.
    set (n2 := x * x + y * y + z * z). destruct (Rlt_dec n2 eps).
    - field. exact Hw.
    - rewrite Rabs_Ropp. destruct (Rlt_dec (Rabs w) eps).
      + destruct (Rlt_dec 0 (- w)), (Rlt_dec 0 w); lra.
      + assert (Hn : forall a, atan (- a) = - atan a) by (intros; apply atan_opp).
        destruct (Rlt_dec (- w) 0), (Rlt_dec w 0); try lra.
        * replace (- sqrt n2 / Rabs w) with (- (sqrt n2 / Rabs w)) by (unfold Rdiv; ring). rewrite Hn. unfold Rdiv. ring.
        * replace (- sqrt n2 / Rabs w) with (- (sqrt n2 / Rabs w)) by (unfold Rdiv; ring). rewrite Hn. unfold Rdiv. ring. }
  rewrite F. unfold v3_scale, q_neg, q_im. cbn. f_equal; ring.
Qed.

Lemma se3_log_neg eps a b : s_pos a = s_pos b -> same_rotation (s_rot a) (s_rot b) -> qw (s_rot b) <> 0 -> se3_log eps a = se3_log eps b.
Proof.
  intros Ep [E|E] Hw; unfold se3_log; rewrite Ep, E; [reflexivity|]. now rewrite so3_log_neg.
Qed.

Lemma pose_frame m d ty i M x : wf_data m d -> has_pose ty -> (i < count m ty)%nat -> pose_is d ty i M x -> get_frame d (Z.of_nat i) ty = Ok (mkS (from_matrix M) x).
Proof.
  intros Hd Hp Hi (_ & Eo & Ep). unfold get_frame, get_rotation. destruct (object_mat_spec m d Hd ty i Hi) as (M' & -> & F). cbn [bind].
  assert (M' = M). { rewrite F in Eo. destruct M, M'. cbn in Eo. injection Eo as -> -> -> -> -> -> -> -> ->. reflexivity. } subst M'.
  destruct (get_pos_spec _ _ _ _ Hd Hp Hi) as [-> _]. cbn [bind]. rewrite Ep. now destruct x.
Qed.
(** The unmasked error. *)
Definition frame_error (eps : R) (M : m3) (x : v3) (q : quat) (p : v3) : list R := se3_log eps (se3_mul (se3_inv (mkS (from_matrix M) x)) (mkS q p)).
Lemma frame_error_length eps M x q p : List.length (frame_error eps M x q p) = 6%nat. Proof. reflexivity. Qed.
Lemma frame_task_value L mk on ty j d q p : frame_task mk on ty j -> has_pose ty -> target_frame_is j q p -> wf_data (j_model j) d -> mask_within 6 mk ->
  exists i, has_object (j_model j) ty on (Z.of_nat i) /\ (i < count (j_model j) ty)%nat /\ j_dim j = Z.of_nat (List.length (axes 6 mk)) /\
   forall M x, pose_is d ty i M x -> call L j d = Ok (coords (axes 6 mk) (frame_error (l_eps L) M x q p)).
Proof.
  intros Hj Hp (Hq & W' & lm' & o' & ty' & E') Hd Hmk. destruct (frame_task_facts _ _ _ _ Hj) as (S & D & M & G & W & lm & t & i & E & Hi).
  destruct (named_object _ _ _ _ S Hp Hi) as (k & -> & Hk). exists k. split; [exact Hi|]. split; [exact Hk|]. split; [exact D|]. intros R0 x HP.
  rewrite E in E'. injection E' as -> -> <- <- ->. unfold call. rewrite E. unfold call_frame. rewrite (pose_frame _ _ _ _ _ _ Hd Hp Hk HP). cbn [bind vec_of ndim t_shape tvec List.length t_data].
  destruct q as [w qx' qy' qz'], p as [a b c]. cbn [q_list v3_list app qw qx qy qz vx vy vz bind vec_of ndim t_shape tvec List.length t_data Nat.eqb se3_of].
  rewrite M. exact (gather_coords _ (frame_error (l_eps L) R0 x (mkQ w qx' qy' qz') (mkV a b c)) 6 (frame_error_length _ _ _ _ _) (axes_within 6 mk Hmk)).
Qed.
Lemma coords_all (l : vec) : coords (seq 0 (List.length l)) l = l.
Proof.
  unfold coords. apply (nth_ext _ _ 0 0); [now rewrite map_length, seq_length|]. intros k Hk. rewrite map_length, seq_length in Hk.
  set (F := fun i => nth i l 0). rewrite (nth_indep _ 0 (F 0%nat)) by (rewrite map_length, seq_length; exact Hk). rewrite map_nth, seq_nth by exact Hk. reflexivity.
Qed.
Lemma frame_error_zero eps M x q p : 0 < eps <= 1 / 2 -> is_rotation M -> q_norm2 q = 1 ->
  (frame_error eps M x q p = vzero 6 <-> M = q_mat q /\ x = p).
Proof.
  intros He HM Hq. destruct (from_matrix_spec M HM) as [N E]. unfold frame_error. rewrite se3_rel_zero by assumption. cbn [s_rot s_pos].
  rewrite <- q_mat_inj by assumption. rewrite E. split; intros [A B]; split; congruence.
Qed.
Lemma frame_error_moved eps M x q p G g q' p' : is_rotation M -> is_rotation G -> q_norm2 q = 1 -> q_norm2 q' = 1 ->
  q_mat q' = move_rot G (q_mat q) -> p' = move_pos G g p -> ~ half_turn M (q_mat q) ->
  frame_error eps (move_rot G M) (move_pos G g x) q' p' = frame_error eps M x q p.
Proof.
  intros HM HG Hq Hq' Eq -> Hh. unfold move_rot, move_pos in *. destruct (from_matrix_spec M HM) as [N E]. destruct (from_matrix_spec _ (rotation_mul _ _ HG HM)) as [N' E'].
  set (f := from_matrix M) in *. set (f' := from_matrix (m3_mul G M)) in *.
  assert (Nc : q_norm2 (q_conj f) = 1) by now rewrite q_norm2_conj. assert (Nc' : q_norm2 (q_conj f') = 1) by now rewrite q_norm2_conj.
  pose proof HG as (G1 & _ & _).
  unfold frame_error. fold f f'. apply se3_log_neg.
  - rewrite !se3_rel_pos. cbn [s_rot s_pos]. rewrite !q_app_mat by assumption. rewrite !q_mat_conj, E, E', m3_tr_mul, m3_app_mul. f_equal.
    replace (v3_sub (v3_add (m3_app G p) g) (v3_add (m3_app G x) g)) with (m3_app G (v3_sub p x)) by (rewrite m3_app_sub; unfold v3_sub, v3_add; cbn; f_equal; ring).
    now rewrite <- m3_app_mul, G1, m3_app_id.
  - cbn [se3_mul se3_inv s_rot]. apply q_mat_inj; try (rewrite q_norm2_mul, ?Nc, ?Nc', ?Hq, ?Hq'; ring). rewrite !q_mat_mul by assumption. rewrite !q_mat_conj, E, E', Eq, m3_tr_mul, m3_mul_assoc.
    f_equal. now rewrite <- m3_mul_assoc, G1, m3_mul_id_l.
  - cbn [se3_mul se3_inv s_rot]. intros Hw. apply Hh. unfold half_turn. rewrite <- E, <- q_mat_conj, <- q_mat_mul by assumption.
    rewrite q_mat_trace by (rewrite q_norm2_mul, Nc, Hq; ring). rewrite Hw. ring.
Qed.
