(** C125: the frame error is the only twist that leads to the target, and it shrinks in proportion on the way. *)
From Verif Require Import Base Lin LinFacts Mjx Typing Component SpecComponent SpecJoint SpecHistory Rot Conf FrameJac Collide JaxComponents Witness.
From Verif Require Import SpecCollision SpecTree SpecShape SpecContact SpecSelf SpecConf SpecValue SpecTwist SpecNear SpecOnly.
From Verif Require Import MotionFacts2 ConfFacts ConfFacts2 ConfCases FrameFacts RotFacts VizFacts ValueFacts ValueFacts2 ValueFacts3 ValueFacts4 ValueCases ValueThms ValueThms2 HalfTurnFacts TwistFacts TwistThms NearFacts NearThms.
Open Scope R_scope.

Lemma travelled_inj a u l l' : 0 < a -> cos a < 1 -> v3_norm2 u = 1 -> travelled 1 a u l = travelled 1 a u l' -> l = l'.
Proof.
  intros Ha Hc Hu E. set (A := (1 - cos a) / a). set (B := 1 - sin a / a). set (z := v3_sub l l'). set (P := cross u z). set (Q := cross u P).
  assert (PA : 0 < A) by (apply Rdiv_lt_0_compat; lra).
  assert (Y : v3_add (v3_add z (v3_scale A P)) (v3_scale B Q) = v3_zero).
  { transitivity (v3_sub (travelled 1 a u l) (travelled 1 a u l')); [|rewrite E; unfold v3_sub, v3_zero; f_equal; ring].
    unfold travelled. rewrite Rmult_1_l. fold A B. unfold Q, P, z, v3_add, v3_sub, v3_scale, cross. cbn. f_equal; ring. }
  pose proof (cross3 u z Hu) as K. fold P Q in K.
  assert (Y1 : v3_add (v3_add P (v3_scale A Q)) (v3_scale B (v3_neg P)) = v3_zero).
  { rewrite <- K. fold Q. transitivity (cross u (v3_add (v3_add z (v3_scale A P)) (v3_scale B Q))); [|rewrite Y; unfold cross, v3_zero; cbn; f_equal; ring]. unfold Q, P, v3_add, v3_scale, cross. cbn. f_equal; ring. }
  assert (Y2 : v3_add (v3_add Q (v3_scale A (v3_neg P))) (v3_scale B (v3_neg Q)) = v3_zero).
  { assert (C : cross u (v3_add (v3_add P (v3_scale A Q)) (v3_scale B (v3_neg P))) = v3_add (v3_add Q (v3_scale A (cross u Q))) (v3_scale B (v3_neg Q))) by (unfold Q; clearbody P; unfold v3_add, v3_scale, v3_neg, cross; cbn; f_equal; ring).
    rewrite K, Y1 in C. rewrite <- C. unfold cross, v3_zero. cbn. f_equal; ring. }
  assert (S2 : forall p q, p + A * q + B * - p = 0 -> q + A * - p + B * - q = 0 -> p = 0 /\ q = 0).
  { intros p q H1 H2. assert (((1 - B) * (1 - B) + A * A) * p = 0) by (replace (((1 - B) * (1 - B) + A * A) * p) with ((1 - B) * (p + A * q + B * - p) - A * (q + A * - p + B * - q)) by ring; rewrite H1, H2; ring).
    assert (((1 - B) * (1 - B) + A * A) * q = 0) by (replace (((1 - B) * (1 - B) + A * A) * q) with (A * (p + A * q + B * - p) + (1 - B) * (q + A * - p + B * - q)) by ring; rewrite H1, H2; ring).
    assert (0 < (1 - B) * (1 - B) + A * A) by (pose proof (Rmult_lt_0_compat _ _ PA PA); pose proof (Rle_0_sqr (1 - B)) as Z; unfold Rsqr in Z; lra). split; match goal with H : ?d * ?r = 0 |- ?r = 0 => destruct (Rmult_integral _ _ H); lra end. }
  unfold v3_add, v3_scale, v3_neg, v3_zero in Y, Y1, Y2. cbn [vx vy vz] in Y, Y1, Y2. injection Y as a1 a2 a3. injection Y1 as b1 b2 b3. injection Y2 as c1 c2 c3.
  destruct (S2 _ _ b1 c1) as [p1 q1]. destruct (S2 _ _ b2 c2) as [p2 q2]. destruct (S2 _ _ b3 c3) as [p3 q3]. rewrite p1, q1 in a1. rewrite p2, q2 in a2. rewrite p3, q3 in a3.
  clearbody A B P Q. unfold z, v3_sub in a1, a2, a3. cbn [vx vy vz] in a1, a2, a3. destruct l as [l1 l2 l3], l' as [k1 k2 k3]. cbn [vx vy vz] in *. f_equal; lra.
Qed.
Lemma half_range a : 0 < a <= PI -> 0 <= cos (a / 2) < 1 /\ 0 < sin (a / 2).
Proof.
  intros Ha. pose proof PI_RGT_0. assert (S1 : 0 < sin (a / 2)) by (apply sin_gt_0; lra). split; [|exact S1]. split; [apply cos_ge_0; lra|]. pose proof (half_sc a). pose proof (COS_bound (a / 2)). nra.
Qed.
Lemma turn_id a u : 0 < a <= PI -> v3_norm2 u = 1 -> turn a u <> m3_id.
Proof.
  intros Ha Hu E. destruct (half_range a Ha) as [C S1]. assert (I1 : m3_id = q_mat (mkQ 1 0 0 0)) by (unfold m3_id, q_mat; cbn; f_equal; ring). rewrite I1 in E. unfold turn in E.
  apply q_mat_inj in E; [|now apply turn_unit|unfold q_norm2; cbn; ring]. destruct E as [E|E]; apply (f_equal qw) in E; cbn in E; lra.
Qed.
Lemma turn_inj a u a' u' : 0 < a <= PI -> 0 < a' < PI -> v3_norm2 u = 1 -> v3_norm2 u' = 1 -> turn a u = turn a' u' -> a = a' /\ u = u'.
Proof.
  intros Ha Ha' Hu Hu' E. unfold turn in E. apply q_mat_inj in E; try now apply turn_unit. destruct (half_range a Ha) as [C S1].
  assert (C' : 0 < cos (a' / 2)) by (apply cos_gt_0; lra). destruct E as [E|E].
  - injection E as E0 E1 E2 E3. assert (Ea : a = a').
    { destruct (Rtotal_order a a') as [L|[L|L]]; [|exact L|]; exfalso; [pose proof (cos_decreasing_1 (a / 2) (a' / 2))|pose proof (cos_decreasing_1 (a' / 2) (a / 2))]; lra. }
    subst a'. split; [reflexivity|]. destruct u, u'. cbn in *. f_equal; apply (Rmult_eq_reg_l (sin (a / 2))); lra.
  - apply (f_equal qw) in E. cbn in E. lra.
Qed.
Lemma cancel_m M A B : is_rotation M -> m3_mul M A = m3_mul M B -> A = B.
Proof. intros (H & _ & _) E. apply (f_equal (m3_mul (m3_tr M))) in E. now rewrite <- !m3_mul_assoc, H, !m3_mul_id_l in E. Qed.
Lemma add_cancel x a b : v3_add x a = v3_add x b -> a = b.
Proof. destruct x as [x1 x2 x3], a as [a1 a2 a3], b as [b1 b2 b3]. unfold v3_add. cbn. intros E. injection E as E1 E2 E3. f_equal; lra. Qed.
Lemma cancel_v M x a b : is_rotation M -> v3_add x (m3_app M a) = v3_add x (m3_app M b) -> a = b.
Proof.
  intros (H & _ & _) E. assert (F : m3_app M a = m3_app M b) by (now apply add_cancel in E).
  apply (f_equal (m3_app (m3_tr M))) in F. now rewrite <- !m3_app_mul, H, !m3_app_id in F.
Qed.
Lemma m3_mul_id_r M : m3_mul M m3_id = M.
Proof. destruct M. unfold m3_mul, m3_id. cbn. f_equal; ring. Qed.
Lemma scale_one v : v3_scale 1 v = v.
Proof. destruct v. unfold v3_scale. cbn. f_equal; ring. Qed.
Lemma axis w : w = v3_zero \/ exists a u, 0 < a /\ v3_norm2 u = 1 /\ w = v3_scale a u /\ v3_norm2 w = a * a.
Proof.
  destruct (Req_dec (v3_norm2 w) 0) as [Z|Z].
  - left. destruct w as [a b c]; unfold v3_norm2, v3_dot, v3_zero in *; cbn in *; f_equal; nra.
  - right. assert (P : 0 < v3_norm2 w) by (assert (0 <= v3_norm2 w) by (unfold v3_norm2, v3_dot; nra); lra). set (a := sqrt (v3_norm2 w)). assert (Pa : 0 < a) by now apply sqrt_lt_R0. assert (Aa : a * a = v3_norm2 w) by (apply sqrt_sqrt; lra).
    exists a, (v3_scale (/ a) w). split; [exact Pa|]. split. { replace (v3_norm2 (v3_scale (/ a) w)) with (/ (a * a) * v3_norm2 w) by (unfold v3_norm2, v3_dot, v3_scale; cbn; field; lra). rewrite Aa. field. lra. }
    split; [destruct w; unfold v3_scale; cbn; f_equal; field; lra|symmetry; exact Aa].
Qed.
Lemma only_twist l w l' w' M x N y : is_rotation M -> arrives l w M x N y -> arrives l' w' M x N y -> v3_norm2 w <= PI * PI -> v3_norm2 w' < PI * PI -> l = l' /\ w = w'.
Proof.
  intros HM (Q & X & H & Q0 & X0 & Q1 & X1) (Q' & X' & H' & Q0' & X0' & Q1' & X1') B B'. pose proof PI_RGT_0 as PP.
  assert (Le : forall a, 0 < a -> a * a <= PI * PI -> a <= PI) by (intros; nra). assert (Lt : forall a, 0 < a -> a * a < PI * PI -> a < PI) by (intros; nra).
  destruct (axis w) as [->|(a & u & Pa & Hu & -> & Na)], (axis w') as [->|(a' & u' & Pa' & Hu' & -> & Na')].
  - destruct (straight_unique l Q X H 1) as [_ F], (straight_unique l' Q' X' H' 1) as [_ F']. rewrite X1, Q0, X0, scale_one in F. rewrite X1', Q0', X0', scale_one in F'. rewrite F in F'. apply cancel_v in F'; [|exact HM]. split; [exact F'|reflexivity].
  - exfalso. destruct (straight_unique l Q X H 1) as [F _], (twist_unique a' u' l' Q' X' ltac:(lra) Hu' H' 1) as [F' _]. rewrite Q1, Q0 in F. rewrite Q1', Q0', F, Rmult_1_l in F'. rewrite <- (m3_mul_id_r M) in F' at 1.
    apply cancel_m in F'; [|exact HM]. symmetry in F'. revert F'. apply turn_id; [|exact Hu']. split; [exact Pa'|]. apply Le; [exact Pa'|]. lra.
  - exfalso. destruct (twist_unique a u l Q X ltac:(lra) Hu H 1) as [F _], (straight_unique l' Q' X' H' 1) as [F' _]. rewrite Q1', Q0' in F'. rewrite Q1, Q0, F', Rmult_1_l in F. rewrite <- (m3_mul_id_r M) in F at 1.
    apply cancel_m in F; [|exact HM]. symmetry in F. revert F. apply turn_id; [|exact Hu]. split; [exact Pa|]. apply Le; [exact Pa|]. lra.
  - destruct (twist_unique a u l Q X ltac:(lra) Hu H 1) as [F G], (twist_unique a' u' l' Q' X' ltac:(lra) Hu' H' 1) as [F' G']. rewrite Q1, Q0, Rmult_1_l in F. rewrite Q1', Q0', Rmult_1_l, F in F'. apply cancel_m in F'; [|exact HM].
    assert (R1 : 0 < a <= PI) by (split; [exact Pa|apply Le; lra]). apply turn_inj in F'; try assumption; [|split; [exact Pa'|apply Lt; lra]]. destruct F' as [-> ->]. split; [|reflexivity].
    rewrite X1, Q0, X0 in G. rewrite X1', Q0', X0', G in G'. apply cancel_v in G'; [|exact HM]. apply (travelled_inj a' u'); try assumption.
    destruct (half_range a' R1) as [_ S1]. replace a' with (2 * (a' / 2)) by field. rewrite cos_2a_sin. nra.
Qed.

(** Part of a motion is a motion. *)
Lemma affine_rate f s k t D : derivable_pt_lim f (s + k * t) D -> derivable_pt_lim (fun t => f (s + k * t)) t (k * D).
Proof.
  intros H. rewrite Rmult_comm. refine (derivable_pt_lim_comp (fun t => s + k * t) f t k D _ H).
  enough (G : derivable_pt_lim (fun t => s + k * t) t (0 + (0 * t + k * 1))) by (now replace (0 + (0 * t + k * 1)) with k in G by ring). refine (derivable_pt_lim_plus (fun _ => s) (fun t => k * t) t _ _ (derivable_pt_lim_const s t) _). exact (derivable_pt_lim_mult (fun _ => k) (fun t => t) t 0 1 (derivable_pt_lim_const k t) (derivable_pt_lim_id t)).
Qed.
Lemma affine_rate_v X s k t D : rate_v X (s + k * t) D -> rate_v (fun t => X (s + k * t)) t (v3_scale k D).
Proof. intros (A & B & C). repeat split; [exact (affine_rate (fun t => vx (X t)) s k t _ A)|exact (affine_rate (fun t => vy (X t)) s k t _ B)|exact (affine_rate (fun t => vz (X t)) s k t _ C)]. Qed.
Lemma part_moves l w Q X s k : moves_with l w Q X -> moves_with (v3_scale k l) (v3_scale k w) (fun t => Q (s + k * t)) (fun t => X (s + k * t)).
Proof.
  intros H t. destruct (H (s + k * t)) as ((A & B & C) & D). set (M := Q (s + k * t)) in *.
  assert (E0 : row0 (m3_mul M (cross_mat (v3_scale k w))) = v3_scale k (row0 (m3_mul M (cross_mat w)))) by (unfold row0, m3_mul, cross_mat, v3_scale; cbn; f_equal; ring).
  assert (E1 : row1 (m3_mul M (cross_mat (v3_scale k w))) = v3_scale k (row1 (m3_mul M (cross_mat w)))) by (unfold row1, m3_mul, cross_mat, v3_scale; cbn; f_equal; ring).
  assert (E2 : row2 (m3_mul M (cross_mat (v3_scale k w))) = v3_scale k (row2 (m3_mul M (cross_mat w)))) by (unfold row2, m3_mul, cross_mat, v3_scale; cbn; f_equal; ring).
  assert (E3 : m3_app M (v3_scale k l) = v3_scale k (m3_app M l)) by (unfold m3_app, v3_scale; cbn; f_equal; ring).
  split; [|rewrite E3; exact (affine_rate_v X s k t _ D)]. unfold rate_m. rewrite E0, E1, E2.
  split; [exact (affine_rate_v (fun t => row0 (Q t)) s k t _ A)|]. split; [exact (affine_rate_v (fun t => row1 (Q t)) s k t _ B)|exact (affine_rate_v (fun t => row2 (Q t)) s k t _ C)].
Qed.

(** ** The frame error *)
Lemma frame_error_only L on ty j d q p : 0 < l_eps L <= 1 / 2 -> frame_task None on ty j -> has_pose ty -> target_frame_is j q p -> wf_data (j_model j) d ->
  exists i, has_object (j_model j) ty on (Z.of_nat i) /\ forall M x, pose_is d ty i M x -> exact_range (l_eps L) M (q_mat q) ->
  forall l w, arrives l w M x (q_mat q) p -> v3_norm2 w < PI * PI -> call L j d = Ok (v3_list l ++ v3_list w).
Proof.
  intros He Hj Hp Ht Hd. destruct (frame_error_leads L on ty j d q p He Hj Hp Ht Hd) as (i & Hi & H). exists i. split; [exact Hi|]. intros M x HP HR l w Ha Hw.
  destruct (H M x HP HR) as (l1 & w1 & E & N & (Q & X & Hm & Q0 & X0) & U). destruct (U Q X Hm Q0 X0) as [Q1 X1].
  assert (A1 : arrives l1 w1 M x (q_mat q) p) by (exists Q, X; exact (conj Hm (conj Q0 (conj X0 (conj Q1 X1))))).
  destruct (only_twist l1 w1 l w M x (q_mat q) p (proj1 HP) A1 Ha N Hw) as [-> ->]. exact E.
Qed.
Lemma frame_error_shrinks L on ty j d q p : 0 < l_eps L <= 1 / 2 -> frame_task None on ty j -> has_pose ty -> target_frame_is j q p -> wf_data (j_model j) d ->
  exists i, has_object (j_model j) ty on (Z.of_nat i) /\ forall M x, pose_is d ty i M x -> exact_range (l_eps L) M (q_mat q) ->
  exists l w, call L j d = Ok (v3_list l ++ v3_list w) /\
    forall Q X, moves_with l w Q X -> Q 0 = M -> X 0 = x -> forall s d', 0 < s <= 1 -> wf_data (j_model j) d' -> pose_is d' ty i (Q s) (X s) -> exact_range (l_eps L) (Q s) (q_mat q) ->
    call L j d' = Ok (v3_list (v3_scale (1 - s) l) ++ v3_list (v3_scale (1 - s) w)).
Proof.
  intros He Hj Hp Ht Hd. destruct (frame_error_leads L on ty j d q p He Hj Hp Ht Hd) as (i & Hi & H). exists i. split; [exact Hi|]. intros M x HP HR.
  destruct (H M x HP HR) as (l & w & E & N & _ & U). exists l, w. split; [exact E|]. intros Q X Hm Q0 X0 s d' Hs Hd' HP' HR'. destruct (U Q X Hm Q0 X0) as [Q1 X1].
  destruct (frame_error_only L on ty j d' q p He Hj Hp Ht Hd') as (i' & Hi' & H'). destruct (frame_task_facts _ _ _ _ Hj) as (SM & _). rewrite <- (unique_object _ _ _ _ _ SM Hi Hi') in H'.
  apply (H' (Q s) (X s) HP' HR').
  - exists (fun t => Q (s + (1 - s) * t)), (fun t => X (s + (1 - s) * t)). split; [now apply part_moves|]. replace (s + (1 - s) * 0) with s by ring. replace (s + (1 - s) * 1) with 1 by ring. split; [reflexivity|]. split; [reflexivity|]. split; assumption.
  - replace (v3_norm2 (v3_scale (1 - s) w)) with ((1 - s) * (1 - s) * v3_norm2 w) by (unfold v3_norm2, v3_dot, v3_scale; cbn; ring). pose proof PI_RGT_0. assert (0 <= v3_norm2 w) by (unfold v3_norm2, v3_dot; nra).
    assert (K : (1 - s) * (1 - s) < 1) by nra. assert (0 < PI * PI) by nra. nra.
Qed.
