(** C123: the frame error is the twist that leads to the target. *)
From Verif Require Import Base Lin LinFacts Mjx Typing Component SpecComponent SpecJoint SpecHistory Rot Conf FrameJac Collide JaxComponents Witness.
From Verif Require Import SpecCollision SpecTree SpecShape SpecContact SpecSelf SpecConf SpecValue SpecTwist.
From Verif Require Import MotionFacts2 ConfFacts ConfFacts2 ConfCases FrameFacts RotFacts VizFacts ValueFacts ValueFacts2 ValueFacts3 ValueFacts4 ValueCases ValueThms ValueThms2 HalfTurnFacts TwistFacts.
Open Scope R_scope.

(** Angle and axis of the logarithm. *)
Lemma log_axis eps r : 0 < eps <= 1 / 2 -> q_norm2 r = 1 -> ordinary eps r \/ qw r = 0 -> exists phi u, 0 < phi <= PI / 2 /\ v3_norm2 u = 1 /\
  so3_log eps r = v3_scale (2 * phi) u /\ same_rotation (mkQ (cos phi) (sin phi * vx u) (sin phi * vy u) (sin phi * vz u)) r /\ eps <= 4 * (phi * phi).
Proof.
  intros He Hr [(Hn & Hw)|Hw]; pose proof PI_RGT_0 as PP; pose proof PI2_1 as P2.
  - set (n2 := v3_norm2 (q_im r)) in *. set (n := sqrt n2).
    assert (Pn : 0 < n) by (apply sqrt_lt_R0; lra). assert (Nn : n * n = n2) by (apply sqrt_sqrt; lra). assert (Pw : 0 < Rabs (qw r)) by lra.
    assert (Ww : Rabs (qw r) * Rabs (qw r) = 1 - n2).
    { rewrite <- Rabs_mult, Rabs_right by (pose proof (Rle_0_sqr (qw r)); unfold Rsqr in *; lra). unfold q_norm2 in Hr. unfold n2, v3_norm2, v3_dot, q_im; cbn. lra. }
    set (w := Rabs (qw r)) in *. set (th := atan (n / w)).
    assert (Px : 0 < n / w) by (apply Rdiv_lt_0_compat; lra). assert (Pth : 0 < th) by (rewrite <- atan_0; now apply atan_increasing). pose proof (atan_bound (n / w)) as Bth. fold th in Bth.
    assert (S1 : sqrt (1 + (n / w)²) = / w).
    { replace (1 + (n / w)²) with ((/ w)²); [apply sqrt_Rsqr; left; now apply Rinv_0_lt_compat|].
      unfold Rsqr. replace (n / w * (n / w)) with ((n * n) / (w * w)) by (field; lra). rewrite Nn, Ww. rewrite <- Rinv_mult, Ww. field. rewrite <- Ww. pose proof (Rmult_lt_0_compat _ _ Pw Pw). lra. }
    assert (C : cos th = w) by (unfold th; rewrite cos_atan, S1; field; lra). assert (Sn : sin th = n) by (unfold th; rewrite sin_atan, S1; field; lra).
    assert (F : so3_factor eps r = (if Rlt_dec (qw r) 0 then -1 else 1) * (2 * th / n)).
    { unfold so3_factor. fold n2. destruct (Rlt_dec n2 eps); [lra|]. fold n w. destruct (Rlt_dec w eps); [lra|].
      destruct (Rlt_dec (qw r) 0); [|unfold th; field; lra]. unfold th. replace (- n / w) with (- (n / w)) by (field; lra). rewrite atan_opp. field. lra. }
    set (sg := if Rlt_dec (qw r) 0 then -1 else 1) in *. assert (SG : sg * sg = 1) by (unfold sg; destruct (Rlt_dec (qw r) 0); lra).
    exists th, (v3_scale (sg / n) (q_im r)). split; [lra|]. split.
    { replace (v3_norm2 (v3_scale (sg / n) (q_im r))) with (sg * sg / (n * n) * n2) by (unfold n2, v3_norm2, v3_dot, v3_scale; cbn; field; lra). rewrite SG, Nn. field. lra. }
    split. { unfold so3_log. rewrite F. unfold v3_scale. cbn. f_equal; field; lra. }
    split.
    { rewrite C, Sn. unfold same_rotation, sg, w. cbn [v3_scale vx vy vz q_im]. destruct (Rlt_dec (qw r) 0) as [Q|Q].
      - right. rewrite Rabs_left by lra. unfold q_neg. f_equal; field; lra.
      - left. rewrite Rabs_right by lra. destruct r; cbn. f_equal; field; lra. }
    assert (n <= th) by (rewrite <- Sn; left; apply sin_lt_x; exact Pth). assert (n * n <= th * th) by nra. nra.
  - destruct (half_log eps r He Hr Hw) as [E N]. exists (PI / 2), (v3_neg (q_im r)). split; [lra|]. split; [unfold v3_norm2, v3_dot, v3_neg in *; cbn in *; lra|].
    split; [rewrite E; unfold v3_scale, v3_neg; cbn; f_equal; field|]. split.
    { rewrite sin_PI2, cos_PI2. right. destruct r as [w x y z]. cbn in Hw. subst w. unfold q_neg, q_im, v3_neg. cbn. f_equal; ring. }
    nra.
Qed.

Lemma cross_lin u p q t P Q : cross u (v3_add (v3_sub t (v3_scale p P)) (v3_scale q Q)) = v3_add (v3_sub (cross u t) (v3_scale p (cross u P))) (v3_scale q (cross u Q)).
Proof. unfold cross, v3_add, v3_sub, v3_scale. cbn. f_equal; ring. Qed.
Lemma cross3 u t : v3_norm2 u = 1 -> cross u (cross u (cross u t)) = v3_neg (cross u t).
Proof.
  intros Hu. transitivity (v3_scale (- v3_norm2 u) (cross u t)); [unfold cross, v3_scale, v3_norm2, v3_dot; cbn; f_equal; ring|]. rewrite Hu. unfold v3_scale, v3_neg. f_equal; ring.
Qed.
(** The translation part undoes the curved path. *)
Lemma inv_travelled eps a u t : 0 < eps -> 0 < a <= PI -> v3_norm2 u = 1 -> eps <= a * a -> travelled 1 a u (v_inv eps (v3_scale a u) t) = t.
Proof.
  intros He Ha Hu Hea. assert (N : v3_norm2 (v3_scale a u) = a * a) by (replace (v3_norm2 (v3_scale a u)) with (a * a * v3_norm2 u) by (unfold v3_norm2, v3_dot, v3_scale; cbn; ring); rewrite Hu; ring).
  unfold v_inv. rewrite N. destruct (Rlt_dec (a * a) eps); [lra|]. rewrite sqrt_square by lra.
  set (s := sin (a / 2)). set (c := cos (a / 2)). pose proof PI_RGT_0 as PP.
  assert (Ps : 0 < s) by (apply sin_gt_0; lra). assert (SC : s * s + c * c = 1) by exact (half_sc a).
  assert (Ca : cos a = 1 - 2 * (s * s)) by (replace a with (2 * (a / 2)) at 1 by field; rewrite cos_2a_sin; unfold s; ring).
  assert (Sa : sin a = 2 * s * c) by (replace a with (2 * (a / 2)) at 1 by field; rewrite sin_2a; reflexivity).
  set (k := 1 - a * c / (2 * s)). pose proof (cross3 u t Hu) as K3. set (P := cross u t) in *. set (Q := cross u P) in *.
  assert (Y : v3_add (v3_sub t (v3_scale (1 / 2) (cross (v3_scale a u) t))) (v3_scale (k / (a * a)) (cross (v3_scale a u) (cross (v3_scale a u) t))) = v3_add (v3_sub t (v3_scale (a / 2) P)) (v3_scale k Q)).
  { unfold Q, P, cross, v3_add, v3_sub, v3_scale. cbn. f_equal; field; lra. }
  rewrite Y. unfold travelled. rewrite !cross_lin, Rmult_1_l. fold P. fold Q. rewrite K3. change (cross u (v3_neg P)) with (cross u (v3_neg P)).
  assert (N1 : cross u (v3_neg P) = v3_neg Q) by (unfold Q, cross, v3_neg; cbn; f_equal; ring). rewrite ?cross_lin, ?N1. clearbody P Q.
  assert (E1 : (1 - cos a) / a - a / 2 - (1 - cos a) / a * k + (1 - sin a / a) * (a / 2) = 0) by (rewrite Ca, Sa; unfold k; field; lra).
  assert (E2 : k - (1 - cos a) / a * (a / 2) + (1 - sin a / a) - (1 - sin a / a) * k = 0).
  { rewrite Ca, Sa. unfold k. replace (1 - a * c / (2 * s) - (1 - (1 - 2 * (s * s))) / a * (a / 2) + (1 - 2 * s * c / a) - (1 - 2 * s * c / a) * (1 - a * c / (2 * s))) with (1 - s * s - c * c) by (field; lra). lra. }
  destruct t as [t1 t2 t3], P as [p1 p2 p3], Q as [g1 g2 g3]. unfold v3_add, v3_sub, v3_scale, v3_neg. cbn [vx vy vz]. set (A := (1 - cos a) / a) in *. set (B := 1 - sin a / a) in *. clearbody A B k.
  f_equal; match goal with |- _ = ?t => match t with t1 => transitivity (t + (A - a / 2 - A * k + B * (a / 2)) * p1 + (k - A * (a / 2) + B - B * k) * g1) | t2 => transitivity (t + (A - a / 2 - A * k + B * (a / 2)) * p2 + (k - A * (a / 2) + B - B * k) * g2) | t3 => transitivity (t + (A - a / 2 - A * k + B * (a / 2)) * p3 + (k - A * (a / 2) + B - B * k) * g3) end end;
    try (rewrite E1, E2; ring); ring.
Qed.

(** Without rotation the body moves straight. *)
Lemma straight_unique l Q X : moves_with l v3_zero Q X -> forall s, Q s = Q 0 /\ X s = v3_add (X 0) (v3_scale s (m3_app (Q 0) l)).
Proof.
  intros H.
  assert (Z : forall s, m3_mul (Q s) (cross_mat v3_zero) = mkM3 0 0 0 0 0 0 0 0 0) by (intros s; unfold m3_mul, cross_mat, v3_zero; cbn; f_equal; ring).
  assert (E : forall s, Q s = Q 0).
  { intros s. rewrite (m3_rows (Q s)), (m3_rows (Q 0)).
    assert (D : forall t, rate_m Q t (mkM3 0 0 0 0 0 0 0 0 0)) by (intros t; rewrite <- (Z t); apply (H t)).
    f_equal; [exact (flat_const (fun t => vx (row0 (Q t))) (fun t => proj1 (proj1 (D t))) s)|exact (flat_const (fun t => vy (row0 (Q t))) (fun t => proj1 (proj2 (proj1 (D t)))) s)|exact (flat_const (fun t => vz (row0 (Q t))) (fun t => proj2 (proj2 (proj1 (D t)))) s)
      |exact (flat_const (fun t => vx (row1 (Q t))) (fun t => proj1 (proj1 (proj2 (D t)))) s)|exact (flat_const (fun t => vy (row1 (Q t))) (fun t => proj1 (proj2 (proj1 (proj2 (D t))))) s)|exact (flat_const (fun t => vz (row1 (Q t))) (fun t => proj2 (proj2 (proj1 (proj2 (D t))))) s)
      |exact (flat_const (fun t => vx (row2 (Q t))) (fun t => proj1 (proj2 (proj2 (D t)))) s)|exact (flat_const (fun t => vy (row2 (Q t))) (fun t => proj1 (proj2 (proj2 (proj2 (D t))))) s)|exact (flat_const (fun t => vz (row2 (Q t))) (fun t => proj2 (proj2 (proj2 (proj2 (D t))))) s)]. }
  intros s. split; [apply E|].
  assert (L : forall f c, (forall t, derivable_pt_lim f t c) -> f s = f 0 + s * c).
  { intros f c Hf. assert (G : f s - s * c = f 0 - 0 * c); [|lra]. apply (flat_const (fun t => f t - t * c)). intros t. replace 0 with (c - (1 * c + t * 0)) by ring.
    refine (derivable_pt_lim_minus f (fun t => t * c) t _ _ (Hf t) _). exact (derivable_pt_lim_mult (fun t => t) (fun _ => c) t 1 0 (derivable_pt_lim_id t) (derivable_pt_lim_const c t)). }
  assert (D : forall t, rate_v X t (m3_app (Q 0) l)) by (intros t; rewrite <- (E t); apply (H t)).
  transitivity (mkV (vx (X s)) (vy (X s)) (vz (X s))); [now destruct (X s)|]. unfold v3_add, v3_scale. cbn [vx vy vz].
  f_equal; [exact (L (fun t => vx (X t)) _ (fun t => proj1 (D t)))|exact (L (fun t => vy (X t)) _ (fun t => proj1 (proj2 (D t))))|exact (L (fun t => vz (X t)) _ (fun t => proj2 (proj2 (D t))))].
Qed.
Lemma straight_exists l M x : exists Q X, moves_with l v3_zero Q X /\ Q 0 = M /\ X 0 = x.
Proof.
  exists (fun _ => M), (fun s => v3_add x (v3_scale s (m3_app M l))). split; [|split; [reflexivity|destruct x; unfold v3_add, v3_scale; cbn; f_equal; ring]].
  assert (Z : m3_mul M (cross_mat v3_zero) = mkM3 0 0 0 0 0 0 0 0 0) by (unfold m3_mul, cross_mat, v3_zero; cbn; f_equal; ring).
  intros s. rewrite Z. split.
  - repeat split; exact (derivable_pt_lim_const _ s).
  - assert (P : forall c k, derivable_pt_lim (fun t => c + t * k) s k).
    { intros c k. enough (D : derivable_pt_lim (fun t => c + t * k) s (0 + (1 * k + s * 0))) by (now replace (0 + (1 * k + s * 0)) with k in D by ring). refine (derivable_pt_lim_plus (fun _ => c) (fun t => t * k) s _ _ (derivable_pt_lim_const c s) _).
      exact (derivable_pt_lim_mult (fun t => t) (fun _ => k) s 1 0 (derivable_pt_lim_id s) (derivable_pt_lim_const k s)). }
    split; [|split]; [exact (P (vx x) _)|exact (P (vy x) _)|exact (P (vz x) _)].
Qed.

(** ** The frame error *)
Lemma m3_app_add A v w : m3_app A (v3_add v w) = v3_add (m3_app A v) (m3_app A w).
Proof. unfold m3_app, v3_add. cbn. f_equal; ring. Qed.
Lemma back_and_forth M x p : is_rotation M -> v3_add x (m3_app M (m3_app (m3_tr M) (v3_sub p x))) = p.
Proof. intros (_ & H & _). rewrite <- m3_app_mul, H, m3_app_id. destruct x, p. unfold v3_add, v3_sub. cbn. f_equal; ring. Qed.
Lemma error_leads eps M x q p : 0 < eps <= 1 / 2 -> is_rotation M -> q_norm2 q = 1 -> exact_range eps M (q_mat q) ->
  exists l w, frame_error eps M x q p = v3_list l ++ v3_list w /\ v3_norm2 w <= PI * PI /\ (exists Q X, moves_with l w Q X /\ Q 0 = M /\ X 0 = x) /\
  (forall Q X, moves_with l w Q X -> Q 0 = M -> X 0 = x -> Q 1 = q_mat q /\ X 1 = p).
Proof.
  intros He HM Hq HR. unfold frame_error. fold (rel M x q p). destruct (from_matrix_spec M HM) as [N E]. pose proof (rel_unit M x q p HM Hq) as U. pose proof (half_iff M x q p HM Hq) as HH. pose proof PI_RGT_0 as PP.
  assert (Nc : q_norm2 (q_conj (from_matrix M)) = 1) by now rewrite q_norm2_conj.
  assert (T : s_pos (rel M x q p) = m3_app (m3_tr M) (v3_sub p x)) by (unfold rel; rewrite se3_rel_pos; cbn [s_rot s_pos]; rewrite q_app_mat by exact Nc; now rewrite q_mat_conj, E).
  assert (Rr : q_mat (s_rot (rel M x q p)) = m3_mul (m3_tr M) (q_mat q)) by (cbn [rel se3_mul se3_inv s_rot]; rewrite q_mat_mul by assumption; now rewrite q_mat_conj, E).
  assert (Tr : trace (m3_mul (m3_tr M) (q_mat q)) = 4 * (qw (s_rot (rel M x q p)) * qw (s_rot (rel M x q p))) - 1) by (rewrite <- Rr; now apply q_mat_trace).
  destruct (rel M x q p) as [r t]. cbn [s_rot s_pos] in *. unfold se3_log. cbn [s_rot s_pos]. pose proof HM as (M1 & M2 & _).
  destruct HR as [Es|HR].
  - assert (Z : so3_log eps r = v3_zero).
    { apply (so3_log_zero eps r He U). rewrite <- Es, M1 in Tr. unfold trace, m3_id in Tr. cbn in Tr. assert (W : qw r * qw r = 1) by lra. destruct r as [w a b c]. unfold q_norm2, q_im, v3_zero in *. cbn in *. f_equal; nra. }
    rewrite Z. assert (V : v_inv eps v3_zero t = t).
    { unfold v_inv. replace (v3_norm2 v3_zero) with 0 by (unfold v3_norm2, v3_dot, v3_zero; cbn; ring). destruct (Rlt_dec 0 eps); [|lra]. destruct t. unfold v3_add, v3_sub, v3_scale, cross, v3_zero. cbn. f_equal; ring. }
    rewrite V. exists t, v3_zero. split; [reflexivity|]. split; [unfold v3_norm2, v3_dot, v3_zero; cbn; nra|]. split; [apply straight_exists|].
    intros Q X Hm Q0 X0. destruct (straight_unique t Q X Hm 1) as [A B]. rewrite Q0 in A, B. rewrite X0 in B. split; [congruence|]. rewrite B, T.
    replace (v3_scale 1 (m3_app M (m3_app (m3_tr M) (v3_sub p x)))) with (m3_app M (m3_app (m3_tr M) (v3_sub p x))) by (unfold v3_scale, m3_app; cbn; f_equal; ring). now apply back_and_forth.
  - assert (O : ordinary eps r \/ qw r = 0).
    { destruct HR as [Hh|[B1 B2]]; [right; now apply HH|left]. rewrite Tr in B1, B2. assert (W : eps * eps <= qw r * qw r) by lra. assert (W2 : qw r * qw r <= 1 - eps) by lra.
      split; [unfold v3_norm2, v3_dot, q_im, q_norm2 in *; cbn; lra|]. rewrite <- (Rabs_right eps) by lra. apply Rsqr_le_abs_0. exact W. }
    destruct (log_axis eps r He U O) as (phi & u & Hp & Hu & El & Sr & Hl). rewrite El. exists (v_inv eps (v3_scale (2 * phi) u) t), (v3_scale (2 * phi) u).
    split; [reflexivity|]. split. { replace (v3_norm2 (v3_scale (2 * phi) u)) with (4 * (phi * phi) * v3_norm2 u) by (unfold v3_norm2, v3_dot, v3_scale; cbn; ring). rewrite Hu. nra. }
    split; [apply twist_exists; [lra|exact Hu]|]. intros Q X Hm Q0 X0. destruct (twist_unique (2 * phi) u _ Q X ltac:(lra) Hu Hm 1) as [A B]. rewrite Q0 in A, B. rewrite X0 in B.
    rewrite inv_travelled in B by (try exact Hu; lra). split; [|now rewrite B, T, back_and_forth].
    rewrite A. unfold turn. replace (1 * (2 * phi) / 2) with phi by field.
    assert (U' : q_norm2 (mkQ (cos phi) (sin phi * vx u) (sin phi * vy u) (sin phi * vz u)) = 1) by (pose proof (turn_unit (2 * phi) u Hu) as X1; now replace (2 * phi / 2) with phi in X1 by field).
    rewrite (proj2 (q_mat_inj _ r U' U) Sr), Rr, <- m3_mul_assoc, M2. apply m3_mul_id_l.
Qed.
Lemma frame_error_leads L on ty j d q p : 0 < l_eps L <= 1 / 2 -> frame_task None on ty j -> has_pose ty -> target_frame_is j q p -> wf_data (j_model j) d ->
  exists i, has_object (j_model j) ty on (Z.of_nat i) /\ forall M x, pose_is d ty i M x -> exact_range (l_eps L) M (q_mat q) ->
  exists l w, call L j d = Ok (v3_list l ++ v3_list w) /\ v3_norm2 w <= PI * PI /\
    (exists Q X, moves_with l w Q X /\ Q 0 = M /\ X 0 = x) /\
    (forall Q X, moves_with l w Q X -> Q 0 = M -> X 0 = x -> Q 1 = q_mat q /\ X 1 = p).
Proof.
  intros He Hj Hp Ht Hd. destruct (frame_task_value L _ _ _ _ _ _ _ Hj Hp Ht Hd I) as (i & Hi & _ & _ & V). exists i. split; [exact Hi|]. intros M x HP HR.
  destruct (error_leads (l_eps L) M x q p He (proj1 HP) (proj1 Ht) HR) as (l & w & E & R). exists l, w. split; [|exact R]. rewrite (V M x HP). f_equal. rewrite <- E. exact (coords_all (frame_error (l_eps L) M x q p)).
Qed.
Lemma motion_unique l w Q X Q' X' : moves_with l w Q X -> moves_with l w Q' X' -> Q 0 = Q' 0 -> X 0 = X' 0 -> forall s, Q s = Q' s /\ X s = X' s.
Proof.
  intros H H' E0 F0 s. destruct (Req_dec (v3_norm2 w) 0) as [Z|Z].
  - assert (W : w = v3_zero) by (destruct w as [a b c]; unfold v3_norm2, v3_dot, v3_zero in *; cbn in *; f_equal; nra). subst w.
    destruct (straight_unique l Q X H s) as [-> ->], (straight_unique l Q' X' H' s) as [-> ->]. now rewrite E0, F0.
  - assert (P : 0 < v3_norm2 w) by (assert (0 <= v3_norm2 w) by (unfold v3_norm2, v3_dot; nra); lra). set (a := sqrt (v3_norm2 w)). assert (Pa : 0 < a) by now apply sqrt_lt_R0. assert (Aa : a * a = v3_norm2 w) by (apply sqrt_sqrt; lra).
    set (u := v3_scale (/ a) w). assert (Ew : w = v3_scale a u) by (destruct w; unfold u, v3_scale; cbn; f_equal; field; lra).
    assert (Hu : v3_norm2 u = 1). { unfold u. replace (v3_norm2 (v3_scale (/ a) w)) with (/ (a * a) * v3_norm2 w) by (unfold v3_norm2, v3_dot, v3_scale; cbn; field; lra). rewrite Aa. field. lra. }
    rewrite Ew in H, H'. destruct (twist_unique a u l Q X ltac:(lra) Hu H s) as [-> ->], (twist_unique a u l Q' X' ltac:(lra) Hu H' s) as [-> ->]. now rewrite E0, F0.
Qed.
