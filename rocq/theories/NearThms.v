(** C124: how far the frame error is from an exact twist where jaxlie approximates. *)
From Verif Require Import Base Lin LinFacts Mjx Typing Component SpecComponent SpecJoint SpecHistory Rot Conf FrameJac Collide JaxComponents Witness.
From Verif Require Import SpecCollision SpecTree SpecShape SpecContact SpecSelf SpecConf SpecValue SpecTwist SpecNear.
From Verif Require Import MotionFacts2 ConfFacts ConfFacts2 ConfCases FrameFacts RotFacts VizFacts ValueFacts ValueFacts2 ValueFacts3 ValueFacts4 ValueCases ValueThms ValueThms2 HalfTurnFacts TwistFacts TwistThms NearFacts.
Open Scope R_scope.

(** Angle the logarithm reports, as a function of the tangent of half the true angle. *)
Definition reported (e n2 w t : R) : R := if Rlt_dec n2 e then 2 * t - 2 / 3 * t ^ 3 else if Rlt_dec w e then PI else 2 * atan t.
Lemma log_parts r : q_norm2 r = 1 -> 0 < v3_norm2 (q_im r) -> qw r <> 0 -> exists u t, v3_norm2 u = 1 /\ 0 < t /\
  t * t * (1 - v3_norm2 (q_im r)) = v3_norm2 (q_im r) /\
  forall e, so3_log e r = v3_scale (reported e (v3_norm2 (q_im r)) (Rabs (qw r)) t) u.
Proof.
  intros Hr Hn Hw. set (n2 := v3_norm2 (q_im r)) in *. set (n := sqrt n2).
  assert (Pn : 0 < n) by (apply sqrt_lt_R0; lra). assert (Nn : n * n = n2) by (apply sqrt_sqrt; lra). assert (Pw : 0 < Rabs (qw r)) by now apply Rabs_pos_lt.
  assert (Ww : Rabs (qw r) * Rabs (qw r) = 1 - n2).
  { rewrite <- Rabs_mult, Rabs_right by (pose proof (Rle_0_sqr (qw r)); unfold Rsqr in *; lra). unfold q_norm2 in Hr. unfold n2, v3_norm2, v3_dot, q_im; cbn. lra. }
  set (sg := if Rlt_dec (qw r) 0 then -1 else 1). assert (SG : sg * sg = 1) by (unfold sg; destruct (Rlt_dec (qw r) 0); lra).
  exists (v3_scale (sg / n) (q_im r)), (n / Rabs (qw r)). split.
  { replace (v3_norm2 (v3_scale (sg / n) (q_im r))) with (sg * sg / (n * n) * n2) by (unfold n2, v3_norm2, v3_dot, v3_scale; cbn; field; lra). rewrite SG, Nn. field. lra. }
  split; [now apply Rdiv_lt_0_compat|]. split. { rewrite <- Ww, <- Nn. field. lra. }
  intros e. assert (F : so3_factor e r = reported e n2 (Rabs (qw r)) (n / Rabs (qw r)) * (sg / n)).
  { unfold so3_factor, reported. fold n2. destruct (Rlt_dec n2 e).
    - rewrite <- Nn. unfold sg. destruct (Rlt_dec (qw r) 0) as [Q|Q]; [rewrite Rabs_left by lra|rewrite Rabs_right by lra]; field; lra.
    - fold n. destruct (Rlt_dec (Rabs (qw r)) e).
      + unfold sg. destruct (Rlt_dec (qw r) 0); destruct (Rlt_dec 0 (qw r)); try lra; field; lra.
      + unfold sg. destruct (Rlt_dec (qw r) 0); [|field; lra]. replace (- n / Rabs (qw r)) with (- (n / Rabs (qw r))) by (field; lra). rewrite atan_opp. field. lra. }
  unfold so3_log. rewrite F. unfold v3_scale. cbn. f_equal; ring.
Qed.

(** The translation part for a rotation vector [a u]. *)
Definition bend (e a : R) : R := if Rlt_dec (a * a) e then a * a * (1 / 12) else 1 - a / 2 * cos (a / 2) / sin (a / 2).
Lemma v_inv_parts e a u t : 0 < e -> 0 < a -> v3_norm2 u = 1 -> sin (a / 2) <> 0 ->
  v_inv e (v3_scale a u) t = v3_add (v3_sub t (v3_scale (a / 2) (cross u t))) (v3_scale (bend e a) (cross u (cross u t))).
Proof.
  intros He Ha Hu Hs. unfold v_inv. assert (E : v3_norm2 (v3_scale a u) = a * a) by (replace (v3_norm2 (v3_scale a u)) with (a * a * v3_norm2 u) by (unfold v3_norm2, v3_dot, v3_scale; cbn; ring); rewrite Hu; ring).
  rewrite E. unfold bend. destruct (Rlt_dec (a * a) e).
  - unfold v3_add, v3_sub, v3_scale, cross. cbn. f_equal; field.
  - rewrite sqrt_square by lra. set (s := sin (a / 2)) in *. set (c := cos (a / 2)). unfold v3_add, v3_sub, v3_scale, cross. cbn. f_equal; field; lra.
Qed.
Lemma cross_norm u t : v3_norm2 u = 1 -> v3_norm2 (cross u t) <= v3_norm2 t.
Proof.
  intros Hu. assert (E : v3_norm2 (cross u t) = v3_norm2 u * v3_norm2 t - v3_dot u t * v3_dot u t) by (unfold v3_norm2, v3_dot, cross; cbn; ring).
  rewrite E, Hu. pose proof (Rle_0_sqr (v3_dot u t)). unfold Rsqr in *. lra.
Qed.
Lemma two_parts u t p q p' q' : v3_norm2 u = 1 ->
  v3_norm2 (v3_sub (v3_add (v3_sub t (v3_scale p (cross u t))) (v3_scale q (cross u (cross u t))))
                   (v3_add (v3_sub t (v3_scale p' (cross u t))) (v3_scale q' (cross u (cross u t)))))
  <= ((p - p') * (p - p') + (q - q') * (q - q')) * v3_norm2 t.
Proof.
  intros Hu. set (c := cross u t). assert (O : v3_dot u c = 0) by (unfold c, v3_dot, cross; cbn; ring).
  assert (E : v3_norm2 (v3_sub (v3_add (v3_sub t (v3_scale p c)) (v3_scale q (cross u c))) (v3_add (v3_sub t (v3_scale p' c)) (v3_scale q' (cross u c))))
    = (p - p') * (p - p') * v3_norm2 c + (q - q') * (q - q') * (v3_norm2 u * v3_norm2 c - v3_dot u c * v3_dot u c)) by (unfold v3_norm2, v3_dot, v3_sub, v3_add, v3_scale, cross; cbn; ring).
  rewrite E, O, Hu. pose proof (cross_norm u t Hu) as K. fold c in K. pose proof (Rle_0_sqr (p - p')). pose proof (Rle_0_sqr (q - q')). unfold Rsqr in *. nra.
Qed.
Lemma scale_norm u a b : v3_norm2 u = 1 -> v3_norm2 (v3_sub (v3_scale a u) (v3_scale b u)) = (a - b) * (a - b).
Proof. intros Hu. replace (v3_norm2 (v3_sub (v3_scale a u) (v3_scale b u))) with ((a - b) * (a - b) * v3_norm2 u) by (unfold v3_norm2, v3_dot, v3_sub, v3_scale; cbn; ring). rewrite Hu. ring. Qed.

(** ** The numbers *)
Lemma sq_le d b : - b <= d <= b -> d * d <= b * b.
Proof. intros H. nra. Qed.
Lemma small_angle t : 0 < t <= 1 -> let a := 2 * t - 2 / 3 * t ^ 3 in 0 < a / 2 <= 1 /\ a / 2 <= t /\ 0 <= 2 * atan t - a <= 2 / 5 * t ^ 5.
Proof.
  intros H a. pose proof (atan_lower3 t ltac:(lra)). pose proof (atan_upper5 t ltac:(lra)). assert (t * t <= 1) by nra.
  assert (P : 0 < t ^ 3) by (apply pow_lt; lra). assert (t ^ 3 <= t) by (replace (t ^ 3) with (t * (t * t)) by ring; nra). unfold a. repeat split; lra.
Qed.
Lemma exact_bend t : 0 < t -> cos (atan t) / sin (atan t) = / t /\ 0 < sin (atan t).
Proof.
  intros Ht. assert (S : 0 < sqrt (1 + Rsqr t)) by (apply sqrt_lt_R0; pose proof (Rle_0_sqr t); lra).
  rewrite cos_atan, sin_atan. split; [field; split; lra|now apply Rdiv_lt_0_compat].
Qed.
Lemma bend_exact e t : 0 < t -> e <= (2 * atan t) * (2 * atan t) -> bend e (2 * atan t) = 1 - atan t / t.
Proof.
  intros Ht He. unfold bend. destruct (Rlt_dec _ _); [lra|]. replace (2 * atan t / 2) with (atan t) by field. destruct (exact_bend t Ht) as [E _].
  unfold Rdiv in E at 1. unfold Rdiv at 1. rewrite Rmult_assoc, E. unfold Rdiv. ring.
Qed.
Lemma bend_small e t : 0 < t <= 1 -> let a := 2 * t - 2 / 3 * t ^ 3 in - (2 / 5 * t ^ 4) <= bend e a - (1 - atan t / t) <= 2 / 5 * t ^ 4.
Proof.
  intros H a. destruct (small_angle t H) as (X1 & X2 & _). fold a in X1, X2. set (x := a / 2) in *.
  assert (T2 : t * t <= 1) by nra. assert (P4 : 0 < t ^ 4) by (apply pow_lt; lra).
  assert (Bx : t ^ 2 - 2 / 3 * t ^ 4 <= x ^ 2 <= t ^ 2).
  { assert (E : x ^ 2 = t ^ 2 - 2 / 3 * t ^ 4 + t ^ 4 * (t * t) / 9) by (unfold x, a; field). rewrite E. split; nra. }
  assert (B4 : x ^ 4 <= t ^ 4) by (replace (x ^ 4) with ((x ^ 2) * (x ^ 2)) by ring; replace (t ^ 4) with ((t ^ 2) * (t ^ 2)) by ring; assert (0 <= x ^ 2) by (apply pow_le; lra); nra).
  assert (Bg : x ^ 2 / 3 <= bend e a <= x ^ 2 / 3 + x ^ 4 / 5).
  { unfold bend. destruct (Rlt_dec (a * a) e).
    - assert (0 < x ^ 4) by (apply pow_lt; lra). replace (a * a * (1 / 12)) with (x ^ 2 / 3) by (unfold x; field). lra.
    - fold x. now apply cot_series. }
  assert (Ba : t ^ 2 / 3 - t ^ 4 / 5 <= 1 - atan t / t <= t ^ 2 / 3).
  { pose proof (atan_lower3 t ltac:(lra)) as L. pose proof (atan_upper5 t ltac:(lra)) as U.
    assert (K : atan t = atan t / t * t) by (field; lra). set (k := atan t / t) in *.
    assert (D : (1 - k) * t = t - atan t) by (rewrite K; ring).
    split; (apply (Rmult_le_reg_r t); [lra|]); rewrite D.
    - replace ((t ^ 2 / 3 - t ^ 4 / 5) * t) with (1 / 3 * t ^ 3 - 1 / 5 * t ^ 5) by field. lra.
    - replace (t ^ 2 / 3 * t) with (1 / 3 * t ^ 3) by field. lra. }
  split; lra.
Qed.

(** What separates the values for [e] from the exact ones. *)
Definition slack (e n2 : R) : R := if Rlt_dec n2 e then 2 * (e * e) else 3 * e.
Lemma parts_close e n2 w t : 0 < e <= 1 / 2 -> 0 < n2 < 1 -> 0 < w -> w * w = 1 - n2 -> 0 < t -> t * t * (1 - n2) = n2 -> (n2 < e \/ w < e) ->
  let a := reported e n2 w t in let b := 2 * atan t in
  0 < a /\ sin (a / 2) <> 0 /\ (a - b) * (a - b) <= slack e n2 * slack e n2 /\
  (a / 2 - b / 2) * (a / 2 - b / 2) + (bend e a - (1 - atan t / t)) * (bend e a - (1 - atan t / t)) <= slack e n2 * slack e n2.
Proof.
  intros He Hn Hw Ww Ht Hte Hr a b. unfold a, reported, slack. pose proof PI_RGT_0 as PP. pose proof PI2_1 as P2. destruct (Rlt_dec n2 e) as [Hs|Hs].
  - assert (T2 : t * t <= 2 * e) by nra. assert (T1 : t <= 1) by nra. destruct (small_angle t (conj Ht T1)) as (X1 & X2 & X3). pose proof (bend_small e t (conj Ht T1)) as X4. cbv zeta in X1, X2, X3, X4.
    set (s := 2 * t - 2 / 3 * t ^ 3) in *. assert (T4 : t ^ 4 <= 4 * (e * e)) by (replace (t ^ 4) with ((t * t) * (t * t)) by ring; nra). assert (P4 : 0 < t ^ 4) by (apply pow_lt; lra).
    assert (T5 : t ^ 5 <= 4 * (e * e)) by (replace (t ^ 5) with (t * t ^ 4) by ring; nra).
    split; [lra|]. split. { apply Rgt_not_eq. apply sin_gt_0; [lra|]. lra. }
    assert (D1 : - (8 / 5 * (e * e)) <= s - b <= 8 / 5 * (e * e)) by (unfold b; split; nra).
    assert (D2 : - (8 / 5 * (e * e)) <= bend e s - (1 - atan t / t) <= 8 / 5 * (e * e)) by (split; nra).
    assert (D3 : - (4 / 5 * (e * e)) <= s / 2 - b / 2 <= 4 / 5 * (e * e)) by lra.
    apply sq_le in D1, D2, D3. assert (0 < (e * e) * (e * e)) by nra. split; nra.
  - assert (Hw' : w < e) by (destruct Hr; [lra|assumption]). destruct (Rlt_dec w e); [|lra].
    assert (N1 : 3 / 4 <= n2) by nra. set (y := / t). assert (Y0 : 0 < y) by now apply Rinv_0_lt_compat.
    assert (Y1 : y * y * n2 = 1 - n2) by (rewrite <- Hte at 1; unfold y; field; lra). assert (Y2 : y * y <= 4 / 3 * (e * e)) by nra.
    assert (A : atan y = PI / 2 - atan t) by (unfold y; now apply atan_inv). pose proof (atan_upper1 y ltac:(lra)) as A1. assert (A0 : 0 < atan y) by (rewrite <- atan_0; now apply atan_increasing).
    assert (B : bend e PI = 1). { unfold bend. destruct (Rlt_dec (PI * PI) e); [nra|]. rewrite cos_PI2, sin_PI2. field. }
    assert (AT : 0 < atan t) by (rewrite <- atan_0; now apply atan_increasing). pose proof PI_4 as P4.
    split; [exact PP|]. split; [rewrite sin_PI2; lra|]. rewrite B. replace (1 - (1 - atan t / t)) with (atan t * y) by (unfold y; field; lra).
    assert (D1 : - (2 * y) <= PI - b <= 2 * y) by (unfold b; lra). assert (D3 : - y <= PI / 2 - b / 2 <= y) by (unfold b; lra).
    assert (D2 : - (2 * y) <= atan t * y <= 2 * y) by (split; nra). apply sq_le in D1, D2, D3. split; nra.
Qed.

Lemma back_norm M v : is_rotation M -> v3_norm2 (m3_app (m3_tr M) v) = v3_norm2 v.
Proof.
  intros (_ & H & _). transitivity (v3_dot v (m3_app (m3_mul M (m3_tr M)) v)); [unfold v3_norm2, v3_dot, m3_app, m3_mul, m3_tr; cbn; ring|]. rewrite H, m3_app_id. reflexivity.
Qed.
Lemma lists_inj a b c d : v3_list a ++ v3_list b = v3_list c ++ v3_list d -> a = c /\ b = d.
Proof. destruct a, b, c, d. unfold v3_list. cbn. intros E. injection E as -> -> -> -> -> ->. split; reflexivity. Qed.
Lemma error_near e M x q p : 0 < e <= 1 / 2 -> is_rotation M -> q_norm2 q = 1 ->
  exists l w l' w' b, frame_error e M x q p = v3_list l ++ v3_list w /\ v3_norm2 w' <= PI * PI /\ (exists Q X, moves_with l' w' Q X /\ Q 0 = M /\ X 0 = x) /\
  (forall Q X, moves_with l' w' Q X -> Q 0 = M -> X 0 = x -> Q 1 = q_mat q /\ X 1 = p) /\
  v3_norm2 (v3_sub w w') <= b * b /\ v3_norm2 (v3_sub l l') <= b * b * v3_norm2 (v3_sub p x) /\
  ((exact_range e M (q_mat q) /\ b = 0) \/ (b = 2 * (e * e) /\ 3 - 4 * e < trace (m3_mul (m3_tr M) (q_mat q))) \/ (b = 3 * e /\ trace (m3_mul (m3_tr M) (q_mat q)) < 4 * (e * e) - 1)).
Proof.
  intros He HM Hq. assert (Self : forall v, v3_norm2 (v3_sub v v) = 0) by (intros; unfold v3_norm2, v3_dot, v3_sub; cbn; ring).
  assert (Dec : exact_range e M (q_mat q) -> exists l w l' w' b, frame_error e M x q p = v3_list l ++ v3_list w /\ v3_norm2 w' <= PI * PI /\ (exists Q X, moves_with l' w' Q X /\ Q 0 = M /\ X 0 = x) /\
    (forall Q X, moves_with l' w' Q X -> Q 0 = M -> X 0 = x -> Q 1 = q_mat q /\ X 1 = p) /\ v3_norm2 (v3_sub w w') <= b * b /\ v3_norm2 (v3_sub l l') <= b * b * v3_norm2 (v3_sub p x) /\
    ((exact_range e M (q_mat q) /\ b = 0) \/ (b = 2 * (e * e) /\ 3 - 4 * e < trace (m3_mul (m3_tr M) (q_mat q))) \/ (b = 3 * e /\ trace (m3_mul (m3_tr M) (q_mat q)) < 4 * (e * e) - 1))).
  { intros HR. destruct (error_leads e M x q p He HM Hq HR) as (l & w & E1 & E2 & E3 & E4). exists l, w, l, w, 0. rewrite !Self. split; [exact E1|]. split; [exact E2|]. split; [exact E3|]. split; [exact E4|]. split; [lra|]. split; [lra|]. left; split; [exact HR|reflexivity]. }
  destruct (from_matrix_spec M HM) as [N E]. pose proof (rel_unit M x q p HM Hq) as U. pose proof (half_iff M x q p HM Hq) as HH.
  assert (Nc : q_norm2 (q_conj (from_matrix M)) = 1) by now rewrite q_norm2_conj.
  assert (T : s_pos (rel M x q p) = m3_app (m3_tr M) (v3_sub p x)) by (unfold rel; rewrite se3_rel_pos; cbn [s_rot s_pos]; rewrite q_app_mat by exact Nc; now rewrite q_mat_conj, E).
  assert (Rr : q_mat (s_rot (rel M x q p)) = m3_mul (m3_tr M) (q_mat q)) by (cbn [rel se3_mul se3_inv s_rot]; rewrite q_mat_mul by assumption; now rewrite q_mat_conj, E).
  assert (Tr : trace (m3_mul (m3_tr M) (q_mat q)) = 4 * (qw (s_rot (rel M x q p)) * qw (s_rot (rel M x q p))) - 1) by (rewrite <- Rr; now apply q_mat_trace).
  assert (FE : forall e', frame_error e' M x q p = se3_log e' (rel M x q p)) by reflexivity.
  destruct (rel M x q p) as [r t] eqn:ER. cbn [s_rot s_pos] in *. set (n2 := v3_norm2 (q_im r)) in *.
  assert (W2 : qw r * qw r = 1 - n2) by (unfold n2, v3_norm2, v3_dot, q_im, q_norm2 in *; cbn; lra).
  assert (N0 : 0 <= n2) by (unfold n2, v3_norm2, v3_dot; cbn; nra).
  destruct (Req_dec n2 0) as [Z|Z].
  { apply Dec. left. destruct HM as (M1 & M2 & M3).
    assert (QI : q_mat r = m3_id). { destruct r as [w a b c]. unfold n2, v3_norm2, v3_dot, q_im in Z. cbn in Z. assert (a = 0) by nra. assert (b = 0) by nra. assert (c = 0) by nra. subst. unfold q_mat, m3_id. cbn. f_equal; ring. }
    rewrite Rr in QI. apply (f_equal (m3_mul M)) in QI. rewrite <- m3_mul_assoc, M2, m3_mul_id_l in QI. rewrite QI. destruct M. unfold m3_mul, m3_id. cbn. f_equal; ring. }
  destruct (Req_dec (qw r) 0) as [Zw|Zw]. { apply Dec. right. left. now apply HH. }
  assert (Aw : 0 < Rabs (qw r)) by now apply Rabs_pos_lt. assert (AA : Rabs (qw r) * Rabs (qw r) = 1 - n2) by (rewrite <- Rabs_mult, Rabs_right by (rewrite W2; nra); exact W2).
  assert (HB : (n2 < e \/ Rabs (qw r) < e) \/ e <= n2 /\ e <= Rabs (qw r)) by (destruct (Rlt_dec n2 e); [tauto|]; destruct (Rlt_dec (Rabs (qw r)) e); [tauto|]; right; lra).
  destruct HB as [HB|[Hs Hh]]. 2:{ apply Dec. right. right. rewrite Tr, W2. rewrite <- AA at 1. split; nra. }
  destruct (log_parts r U ltac:(fold n2; lra) Zw) as (u & tt & Hu & Pt & Et & El); fold n2 in Et, El.
  set (e' := Rmin (Rmin n2 (Rabs (qw r))) (1 / 2)).
  assert (Pe : 0 < e' <= 1 / 2 /\ e' <= n2 /\ e' <= Rabs (qw r)) by (unfold e'; pose proof (Rmin_l (Rmin n2 (Rabs (qw r))) (1 / 2)); pose proof (Rmin_r (Rmin n2 (Rabs (qw r))) (1 / 2)); pose proof (Rmin_l n2 (Rabs (qw r))); pose proof (Rmin_r n2 (Rabs (qw r))); repeat split; try lra; repeat apply Rmin_glb_lt; lra).
  destruct Pe as (Pe & Pe1 & Pe2).
  assert (HR : exact_range e' M (q_mat q)) by (right; right; rewrite Tr, W2; rewrite <- AA at 1; split; nra).
  destruct (error_leads e' M x q p Pe HM Hq HR) as (l' & w' & E1 & E2 & E3 & E4).
  destruct (parts_close e n2 (Rabs (qw r)) tt He ltac:(nra) Aw AA Pt Et HB) as (PA & PS & PD & PB).
  set (a := reported e n2 (Rabs (qw r)) tt) in *; set (b := 2 * atan tt) in *.
  assert (RB : reported e' n2 (Rabs (qw r)) tt = b) by (unfold reported; destruct (Rlt_dec n2 e'); [lra|]; destruct (Rlt_dec (Rabs (qw r)) e'); [lra|reflexivity]).
  destruct (exact_bend tt Pt) as [_ SB]; assert (AT : 0 < atan tt) by (rewrite <- atan_0; now apply atan_increasing).
  assert (BE : e' <= b * b).
  { destruct (log_axis e' r Pe U (or_introl (conj Pe1 Pe2))) as (phi & u' & Hp & Hu' & El' & _ & Hl); rewrite El, RB in El';
       assert (K : b * b = 2 * phi * (2 * phi)) by (apply (f_equal v3_norm2) in El'; replace (v3_norm2 (v3_scale b u)) with (b * b * v3_norm2 u) in El' by (unfold v3_norm2, v3_dot, v3_scale; cbn; ring);
         replace (v3_norm2 (v3_scale (2 * phi) u')) with (2 * phi * (2 * phi) * v3_norm2 u') in El' by (unfold v3_norm2, v3_dot, v3_scale; cbn; ring); rewrite Hu, Hu' in El'; lra); rewrite K; lra. }
  rewrite FE in E1; unfold se3_log in E1; cbn [s_rot s_pos] in E1; rewrite El, RB in E1.
  assert (E1' : l' = v_inv e' (v3_scale b u) t /\ w' = v3_scale b u) by (apply lists_inj; now symmetry).
  destruct E1' as [-> ->].
  assert (NT : v3_norm2 t = v3_norm2 (v3_sub p x)) by (rewrite T; apply back_norm; exact HM).
  exists (v_inv e (v3_scale a u) t), (v3_scale a u), (v_inv e' (v3_scale b u) t), (v3_scale b u), (slack e n2).
  split; [rewrite FE; unfold se3_log; cbn [s_rot s_pos]; now rewrite El|]; split; [exact E2|]; split; [exact E3|]; split; [exact E4|].
  split; [rewrite scale_norm by exact Hu; exact PD|].
  split; [rewrite !v_inv_parts; try (exact Hu || exact PS || lra || (unfold b; lra) || (replace (b / 2) with (atan tt) by (unfold b; field); lra))|].
  { rewrite <- NT; eapply Rle_trans; [apply two_parts; exact Hu|]; apply Rmult_le_compat_r; [unfold v3_norm2, v3_dot; nra|]; unfold b at 3 4; rewrite bend_exact by (exact Pt || exact BE); exact PB. }
  right. unfold slack. destruct (Rlt_dec n2 e); [left|right]; (split; [reflexivity|]); rewrite Tr, W2; [lra|]. rewrite <- AA. nra.
Qed.
Lemma frame_error_near L on ty j d q p : 0 < l_eps L <= 1 / 2 -> frame_task None on ty j -> has_pose ty -> target_frame_is j q p -> wf_data (j_model j) d ->
  exists i, has_object (j_model j) ty on (Z.of_nat i) /\ forall M x, pose_is d ty i M x ->
  exists l w l' w' b, call L j d = Ok (v3_list l ++ v3_list w) /\ leads_to l' w' M x (q_mat q) p /\ v3_norm2 w' <= PI * PI /\
    deviation (l_eps L) M (q_mat q) b /\ within b w w' /\ within (b * sqrt (v3_norm2 (v3_sub p x))) l l'.
Proof.
  intros He Hj Hp Ht Hd. destruct (frame_task_value L _ _ _ _ _ _ _ Hj Hp Ht Hd I) as (i & Hi & _ & _ & V). exists i. split; [exact Hi|]. intros M x HP.
  destruct (error_near (l_eps L) M x q p He (proj1 HP) (proj1 Ht)) as (l & w & l' & w' & b & E & N & E3 & E4 & D1 & D2 & HB). exists l, w, l', w', b.
  split; [rewrite (V M x HP); f_equal; rewrite <- E; exact (coords_all (frame_error (l_eps L) M x q p))|]. split; [split; assumption|]. split; [exact N|]. split; [unfold deviation; tauto|]. split; [exact D1|].
  unfold within. set (n := v3_norm2 (v3_sub p x)) in *. replace (b * sqrt n * (b * sqrt n)) with (b * b * (sqrt n * sqrt n)) by ring. rewrite sqrt_sqrt; [exact D2|]. unfold n, v3_norm2, v3_dot. nra.
Qed.
Lemma deviation_le e A B b : 0 < e <= 1 / 2 -> deviation e A B b -> 0 <= b <= 3 * e.
Proof. intros He [[_ ->]|[[_ ->]|[_ ->]]]; nra. Qed.
Lemma frame_error_everywhere L on ty j d q p : 0 < l_eps L <= 1 / 2 -> frame_task None on ty j -> has_pose ty -> target_frame_is j q p -> wf_data (j_model j) d ->
  exists i, has_object (j_model j) ty on (Z.of_nat i) /\ forall M x, pose_is d ty i M x ->
  exists l w l' w', call L j d = Ok (v3_list l ++ v3_list w) /\ leads_to l' w' M x (q_mat q) p /\
    within (3 * l_eps L) w w' /\ within (3 * l_eps L * sqrt (v3_norm2 (v3_sub p x))) l l'.
Proof.
  intros He Hj Hp Ht Hd. destruct (frame_error_near L on ty j d q p He Hj Hp Ht Hd) as (i & Hi & H). exists i. split; [exact Hi|]. intros M x HP.
  destruct (H M x HP) as (l & w & l' & w' & b & E & F & _ & D & D1 & D2). exists l, w, l', w'. split; [exact E|]. split; [exact F|]. apply deviation_le in D; [|exact He]. unfold within in *.
  pose proof (sqrt_pos (v3_norm2 (v3_sub p x))) as P. set (n := sqrt (v3_norm2 (v3_sub p x))) in *. split; [eapply Rle_trans; [exact D1|nra]|]. eapply Rle_trans; [exact D2|].
  assert (0 <= b * n <= 3 * l_eps L * n) by nra. nra.
Qed.
(** With a mask the error is the selected part of such a twist. *)
Lemma frame_error_near_masked L mk on ty j d q p : 0 < l_eps L <= 1 / 2 -> frame_task mk on ty j -> has_pose ty -> target_frame_is j q p -> wf_data (j_model j) d -> mask_within 6 mk ->
  exists i, has_object (j_model j) ty on (Z.of_nat i) /\ forall M x, pose_is d ty i M x ->
  exists l w l' w' b, call L j d = Ok (coords (axes 6 mk) (v3_list l ++ v3_list w)) /\ leads_to l' w' M x (q_mat q) p /\ v3_norm2 w' <= PI * PI /\
    deviation (l_eps L) M (q_mat q) b /\ within b w w' /\ within (b * sqrt (v3_norm2 (v3_sub p x))) l l'.
Proof.
  intros He Hj Hp Ht Hd Hk. destruct (frame_task_value L _ _ _ _ _ _ _ Hj Hp Ht Hd Hk) as (i & Hi & _ & _ & V). exists i. split; [exact Hi|]. intros M x HP.
  destruct (error_near (l_eps L) M x q p He (proj1 HP) (proj1 Ht)) as (l & w & l' & w' & b & E & N & E3 & E4 & D1 & D2 & HB). exists l, w, l', w', b.
  split; [now rewrite (V M x HP), E|]. split; [split; assumption|]. split; [exact N|]. split; [unfold deviation; tauto|]. split; [exact D1|].
  unfold within. set (n := v3_norm2 (v3_sub p x)) in *. replace (b * sqrt n * (b * sqrt n)) with (b * b * (sqrt n * sqrt n)) by ring. rewrite sqrt_sqrt; [exact D2|]. unfold n, v3_norm2, v3_dot. nra.
Qed.
