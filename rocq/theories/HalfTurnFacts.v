(** C33: what the frame error does at a half turn. *)
From Verif Require Import Base Lin LinFacts Mjx Typing Component SpecComponent SpecJoint SpecHistory Rot Conf FrameJac Collide JaxComponents Witness.
From Verif Require Import SpecCollision SpecTree SpecShape SpecContact SpecSelf SpecConf SpecValue.
From Verif Require Import MotionFacts2 ConfFacts ConfFacts2 ConfCases FrameFacts RotFacts ValueFacts ValueFacts2 ValueFacts3 ValueFacts4 ValueCases ValueThms ValueThms2.
Open Scope R_scope.

Lemma half_log eps q : 0 < eps <= 1 / 2 -> q_norm2 q = 1 -> qw q = 0 -> so3_log eps q = v3_scale (- PI) (q_im q) /\ v3_norm2 (q_im q) = 1.
Proof.
  intros He Hn Hw. assert (N : v3_norm2 (q_im q) = 1) by (destruct q as [w x y z]; unfold q_norm2, v3_norm2, v3_dot, q_im in *; cbn in *; subst w; lra).
  split; [|exact N]. unfold so3_log, so3_factor. rewrite N. destruct (Rlt_dec 1 eps); [lra|]. rewrite Hw, Rabs_R0. destruct (Rlt_dec 0 eps); [|lra]. destruct (Rlt_dec 0 0); [lra|].
  rewrite sqrt_1. f_equal. lra.
Qed.
(** The translation part at a half turn about the axis [u]. *)
Definition turned (s : R) (u t : v3) : v3 := v3_add (v3_add t (v3_scale (s * PI / 2) (cross u t))) (cross u (cross u t)).
Lemma half_inv eps u t : 0 < eps <= 1 / 2 -> v3_norm2 u = 1 -> v_inv eps (v3_scale (- PI) u) t = turned 1 u t.
Proof.
  intros He Hu. pose proof PI_RGT_0 as P. pose proof PI2_1 as P2. assert (N : v3_norm2 (v3_scale (- PI) u) = PI * PI) by (unfold v3_norm2, v3_dot, v3_scale in *; cbn; destruct u as [a b c]; cbn in *; nra).
  unfold v_inv. rewrite N. destruct (Rlt_dec (PI * PI) eps); [nra|]. rewrite sqrt_square by lra. rewrite cos_PI2.
  replace ((1 - PI * 0 / (2 * sin (PI / 2))) / (PI * PI)) with (/ (PI * PI)) by (rewrite sin_PI2; field; lra).
  destruct u as [a b c], t as [x y z]. unfold turned, v3_add, v3_sub, v3_scale, cross. cbn [vx vy vz]. f_equal; field; lra.
Qed.
Lemma turned_neg s u t : turned s (mkV (- vx u) (- vy u) (- vz u)) t = turned (- s) u t.
Proof. destruct u as [a b c], t as [x y z]. unfold turned, v3_add, v3_scale, cross. cbn [vx vy vz]. f_equal; field. Qed.
Lemma turned_size u t : v3_norm2 (turned (-1) u t) = v3_norm2 (turned 1 u t).
Proof. destruct u as [a b c], t as [x y z]. unfold turned, v3_norm2, v3_dot, v3_add, v3_scale, cross. cbn [vx vy vz]. field. Qed.

Definition angular (v : vec) : vec := skipn 3 v.
Lemma half_value eps r t : 0 < eps <= 1 / 2 -> q_norm2 r = 1 -> qw r = 0 ->
  se3_log eps (mkS r t) = v3_list (turned 1 (q_im r) t) ++ v3_list (v3_scale (- PI) (q_im r)) /\
  se3_log eps (mkS (q_neg r) t) = v3_list (turned (-1) (q_im r) t) ++ v3_list (v3_scale PI (q_im r)).
Proof.
  intros He Hn Hw. destruct (half_log eps r He Hn Hw) as [E N].
  assert (Hn' : q_norm2 (q_neg r) = 1) by (destruct r; unfold q_norm2, q_neg in *; cbn in *; lra). assert (Hw' : qw (q_neg r) = 0) by (destruct r; cbn in *; lra).
  destruct (half_log eps (q_neg r) He Hn' Hw') as [E' N'].
  split; unfold se3_log; cbn [s_rot s_pos]; [rewrite E, half_inv by assumption; reflexivity|].
  rewrite E', half_inv by assumption. f_equal; [|destruct r as [w x y z]; unfold v3_scale, v3_list, q_im, q_neg; cbn; f_equal; [ring|f_equal; [ring|f_equal; ring]]].
  f_equal. change (q_im (q_neg r)) with (mkV (- vx (q_im r)) (- vy (q_im r)) (- vz (q_im r))). rewrite turned_neg. reflexivity.
Qed.
Lemma list_size a b : dot (v3_list a ++ v3_list b) (v3_list a ++ v3_list b) = v3_norm2 a + v3_norm2 b.
Proof. destruct a, b. unfold dot, v3_norm2, v3_dot. cbn. ring. Qed.
(** The sign of the quaternion never changes the size of the logarithm. *)
Lemma log_size eps r r' t : 0 < eps <= 1 / 2 -> q_norm2 r = 1 -> same_rotation r' r -> dot (se3_log eps (mkS r' t)) (se3_log eps (mkS r' t)) = dot (se3_log eps (mkS r t)) (se3_log eps (mkS r t)).
Proof.
  intros He Hn [->| ->]; [reflexivity|]. destruct (Req_dec (qw r) 0) as [Hw|Hw].
  - destruct (half_value eps r t He Hn Hw) as [-> ->]. rewrite !list_size, turned_size. f_equal. unfold v3_norm2, v3_dot, v3_scale. cbn. ring.
  - rewrite (se3_log_neg eps (mkS (q_neg r) t) (mkS r t)); [reflexivity|reflexivity|now right|exact Hw].
Qed.
Lemma log_sign eps r t : 0 < eps <= 1 / 2 -> q_norm2 r = 1 -> qw r = 0 ->
  angular (se3_log eps (mkS (q_neg r) t)) = map Ropp (angular (se3_log eps (mkS r t))) /\ dot (angular (se3_log eps (mkS r t))) (angular (se3_log eps (mkS r t))) = PI * PI.
Proof.
  intros He Hn Hw. destruct (half_value eps r t He Hn Hw) as [-> ->]. destruct (half_log eps r He Hn Hw) as [_ N]. revert N. generalize (q_im r). intros [a b c] N. unfold angular, v3_norm2, v3_dot, v3_scale, v3_list in *. cbn in *.
  split; [f_equal; [ring|f_equal; [ring|f_equal; ring]]|]. unfold dot. cbn. nra.
Qed.

(** The pose of the target relative to the frame. *)
Definition rel (M : m3) (x : v3) (q : quat) (p : v3) : se3 := se3_mul (se3_inv (mkS (from_matrix M) x)) (mkS q p).
Lemma rel_unit M x q p : is_rotation M -> q_norm2 q = 1 -> q_norm2 (s_rot (rel M x q p)) = 1.
Proof. intros HM Hq. destruct (from_matrix_spec M HM) as [N E]. cbn. rewrite q_norm2_mul, q_norm2_conj, N, Hq. ring. Qed.
Lemma half_iff M x q p : is_rotation M -> q_norm2 q = 1 -> (half_turn M (q_mat q) <-> qw (s_rot (rel M x q p)) = 0).
Proof.
  intros HM Hq. destruct (from_matrix_spec M HM) as [N E]. pose proof (rel_unit M x q p HM Hq) as U. unfold rel in *. cbn [se3_mul se3_inv s_rot] in *. unfold half_turn.
  assert (Nc : q_norm2 (q_conj (from_matrix M)) = 1) by now rewrite q_norm2_conj.
  assert (T : trace (m3_mul (m3_tr M) (q_mat q)) = 4 * (qw (q_mul (q_conj (from_matrix M)) q) * qw (q_mul (q_conj (from_matrix M)) q)) - 1).
  { rewrite <- q_mat_trace by exact U. rewrite q_mat_mul by assumption. now rewrite q_mat_conj, E. }
  rewrite T. split; intros H; [nra|rewrite H; ring].
Qed.
Lemma rel_neg M x q p : is_rotation M -> q_norm2 q = 1 -> rel M x (q_neg q) p = mkS (q_neg (s_rot (rel M x q p))) (s_pos (rel M x q p)).
Proof. intros _ _. unfold rel, se3_mul. cbn [s_rot s_pos]. f_equal. destruct (s_rot (se3_inv (mkS (from_matrix M) x))), q. unfold q_mul, q_neg. cbn. f_equal; ring. Qed.
Lemma error_sign eps M x q p : 0 < eps <= 1 / 2 -> is_rotation M -> q_norm2 q = 1 -> half_turn M (q_mat q) ->
  angular (frame_error eps M x (q_neg q) p) = map Ropp (angular (frame_error eps M x q p)) /\ dot (angular (frame_error eps M x q p)) (angular (frame_error eps M x q p)) = PI * PI.
Proof.
  intros He HM Hq Hh. unfold frame_error. fold (rel M x q p) (rel M x (q_neg q) p). rewrite rel_neg by assumption. pose proof (proj1 (half_iff M x q p HM Hq) Hh) as W. pose proof (rel_unit M x q p HM Hq) as U.
  destruct (rel M x q p) as [r t]. exact (log_sign eps r t He U W).
Qed.
Lemma error_same eps M x q p : is_rotation M -> q_norm2 q = 1 -> ~ half_turn M (q_mat q) -> frame_error eps M x (q_neg q) p = frame_error eps M x q p.
Proof.
  intros HM Hq Hh. unfold frame_error. fold (rel M x q p) (rel M x (q_neg q) p). rewrite rel_neg by assumption. apply se3_log_neg; [reflexivity|now right|]. intros W. apply Hh. now apply (half_iff M x q p HM Hq).
Qed.
Lemma error_size_moved eps M x q p G g q' p' : 0 < eps <= 1 / 2 -> is_rotation M -> is_rotation G -> q_norm2 q = 1 -> q_norm2 q' = 1 ->
  q_mat q' = move_rot G (q_mat q) -> p' = move_pos G g p ->
  dot (frame_error eps (move_rot G M) (move_pos G g x) q' p') (frame_error eps (move_rot G M) (move_pos G g x) q' p') = dot (frame_error eps M x q p) (frame_error eps M x q p).
Proof.
  intros He HM HG Hq Hq' Eq ->. unfold move_rot, move_pos in *. destruct (from_matrix_spec M HM) as [N E]. destruct (from_matrix_spec _ (rotation_mul _ _ HG HM)) as [N' E'].
  pose proof (rel_unit M x q p HM Hq) as U. unfold frame_error. fold (rel M x q p) (rel (m3_mul G M) (v3_add (m3_app G x) g) q' (v3_add (m3_app G p) g)).
  assert (Nc : q_norm2 (q_conj (from_matrix M)) = 1) by now rewrite q_norm2_conj. assert (Nc' : q_norm2 (q_conj (from_matrix (m3_mul G M))) = 1) by now rewrite q_norm2_conj.
  pose proof HG as (G1 & _ & _).
  assert (Ep : s_pos (rel (m3_mul G M) (v3_add (m3_app G x) g) q' (v3_add (m3_app G p) g)) = s_pos (rel M x q p)).
  { unfold rel. rewrite !se3_rel_pos. cbn [s_rot s_pos]. rewrite !q_app_mat by assumption. rewrite !q_mat_conj, E, E', m3_tr_mul, m3_app_mul. f_equal.
    replace (v3_sub (v3_add (m3_app G p) g) (v3_add (m3_app G x) g)) with (m3_app G (v3_sub p x)) by (rewrite m3_app_sub; unfold v3_sub, v3_add; cbn; f_equal; ring).
    now rewrite <- m3_app_mul, G1, m3_app_id. }
  assert (Er : same_rotation (s_rot (rel (m3_mul G M) (v3_add (m3_app G x) g) q' (v3_add (m3_app G p) g))) (s_rot (rel M x q p))).
  { cbn [rel se3_mul se3_inv s_rot]. apply q_mat_inj; try (rewrite q_norm2_mul, ?Nc, ?Nc', ?Hq, ?Hq'; ring). rewrite !q_mat_mul by assumption. rewrite !q_mat_conj, E, E', Eq, m3_tr_mul, m3_mul_assoc.
    f_equal. now rewrite <- m3_mul_assoc, G1, m3_mul_id_l. }
  destruct (rel M x q p) as [r t], (rel (m3_mul G M) (v3_add (m3_app G x) g) q' (v3_add (m3_app G p) g)) as [r' t']. cbn [s_rot s_pos] in *. subst t'. now apply log_size.
Qed.

Lemma frame_size_rigid L on ty j j' d d' q p q' p' G g : 0 < l_eps L <= 1 / 2 -> frame_task None on ty j -> frame_task None on ty j' -> j_model j' = j_model j -> has_pose ty ->
  target_frame_is j q p -> target_frame_is j' q' p' -> wf_data (j_model j) d -> wf_data (j_model j) d' -> is_rotation G -> q_mat q' = move_rot G (q_mat q) -> p' = move_pos G g p ->
  exists i, has_object (j_model j) ty on (Z.of_nat i) /\ forall M x, pose_is d ty i M x -> pose_is d' ty i (move_rot G M) (move_pos G g x) ->
  exists v v', call L j d = Ok v /\ call L j' d' = Ok v' /\ dot v' v' = dot v v.
Proof.
  intros He Hj Hj' Em Hp Ht Ht' Hd Hd' HG Eq Ep. destruct (frame_task_value L _ _ _ _ _ _ _ Hj Hp Ht Hd I) as (i & Hi & _ & _ & V). exists i. split; [exact Hi|].
  rewrite <- Em in Hd'. destruct (frame_task_value L _ _ _ _ _ _ _ Hj' Hp Ht' Hd' I) as (i' & Hi' & _ & _ & V').
  pose proof (frame_task_facts _ _ _ _ Hj) as (S & _). rewrite Em in Hi'. pose proof (unique_object _ _ _ _ _ S Hi Hi'). subst i'.
  intros M x HP HP'. do 2 eexists. split; [exact (V _ _ HP)|]. split; [exact (V' _ _ HP')|]. change (axes 6 (option_map mvec None)) with (seq 0 6). change (axes 6 None) with (seq 0 6).
  pose proof (coords_all (frame_error (l_eps L) M x q p)) as C1. pose proof (coords_all (frame_error (l_eps L) (move_rot G M) (move_pos G g x) q' p')) as C2. rewrite frame_error_length in C1, C2. rewrite C1, C2.
  apply error_size_moved; auto; [apply HP|apply Ht|apply Ht'].
Qed.
Lemma frame_sign_iff L on ty j j' d q q' p : 0 < l_eps L <= 1 / 2 -> frame_task None on ty j -> frame_task None on ty j' -> j_model j' = j_model j -> has_pose ty ->
  target_frame_is j q p -> target_frame_is j' q' p -> q_mat q' = q_mat q -> wf_data (j_model j) d ->
  exists i, has_object (j_model j) ty on (Z.of_nat i) /\ forall M x, pose_is d ty i M x ->
  (call L j' d = call L j d <-> q' = q \/ ~ half_turn M (q_mat q)) /\
  (half_turn M (q_mat q) -> q' <> q -> exists v v', call L j d = Ok v /\ call L j' d = Ok v' /\ angular v' = map Ropp (angular v) /\ dot (angular v) (angular v) = PI * PI).
Proof.
  intros He Hj Hj' Em Hp Ht Ht' Eq Hd. destruct (frame_task_value L _ _ _ _ _ _ _ Hj Hp Ht Hd I) as (i & Hi & _ & _ & V). exists i. split; [exact Hi|].
  assert (Hd' := Hd). rewrite <- Em in Hd'. destruct (frame_task_value L _ _ _ _ _ _ _ Hj' Hp Ht' Hd' I) as (i' & Hi' & _ & _ & V').
  pose proof (frame_task_facts _ _ _ _ Hj) as (S & _). rewrite Em in Hi'. pose proof (unique_object _ _ _ _ _ S Hi Hi'). subst i'.
  intros M x HP. rewrite (V _ _ HP), (V' _ _ HP). change (axes 6 None) with (seq 0 6).
  pose proof (coords_all (frame_error (l_eps L) M x q p)) as C1. pose proof (coords_all (frame_error (l_eps L) M x q' p)) as C2. rewrite frame_error_length in C1, C2. rewrite C1, C2.
  pose proof (proj1 Ht) as Nq. pose proof (proj1 Ht') as Nq'. destruct HP as (HM & _).
  pose proof (proj1 (q_mat_inj q' q Nq' Nq) Eq) as [->|En]; [split; [tauto|intros _ H; now destruct H]|]. subst q'.
  assert (Ne : q_neg q <> q). { intros E. destruct q as [w a b c]. unfold q_neg, q_norm2 in *. cbn in *. injection E as E1 E2 E3 E4. nra. }
  assert (Hs : half_turn M (q_mat q) -> frame_error (l_eps L) M x (q_neg q) p <> frame_error (l_eps L) M x q p).
  { intros Hh E. destruct (error_sign (l_eps L) M x q p He HM Nq Hh) as [A B]. rewrite E in A. pose proof PI_RGT_0 as P.
    assert (Z : forall l : vec, l = map Ropp l -> dot l l = 0). { induction l as [|a l IH]; intros El; [reflexivity|]. cbn in El. injection El as E1 E2. assert (a = 0) by lra. subst a. specialize (IH E2). change (dot (0 :: l) (0 :: l)) with (0 * 0 + dot l l). rewrite IH. ring. }
    rewrite (Z _ A) in B. nra. }
  split.
  - split; [intros E; right; intros Hh; apply (Hs Hh); now apply Ok_inj in E|]. intros [E|Hh]; [congruence|]. f_equal. now apply error_same.
  - intros Hh _. do 2 eexists. split; [reflexivity|]. split; [reflexivity|]. now apply error_sign.
Qed.
