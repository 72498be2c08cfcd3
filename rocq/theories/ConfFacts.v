(** Proofs about configuration-space functions. *)
From Verif Require Import Base Lin LinFacts Mjx SpecJoint JointFacts Rot Conf SpecMotion MotionFacts MotionFacts2 SpecConf.
Open Scope R_scope.

(** ** Concatenation of per-joint pieces *)
Definition sized (size : jnttype -> nat) (ts : list jnttype) (ds : list (list R)) : Prop :=
  Forall2 (fun t d => List.length d = size t) ts ds.
Lemma sized_length size ts ds : sized size ts ds -> List.length (List.concat ds) = total size ts.
Proof. unfold sized, total. induction 1 as [|t d ts ds H _ IH]; [reflexivity|]. cbn. rewrite app_length, H, IH. reflexivity. Qed.
Lemma sized_slice size ts ds : sized size ts ds -> forall j t, nth_error ts j = Some t -> exists d, nth_error ds j = Some d /\ List.length d = size t /\
  slice (pos size ts j) (size t) (List.concat ds) = d.
Proof.
  unfold sized, pos, slice. induction 1 as [|t d ts ds H _ IH]; intros [|j] t' Hj; try discriminate; cbn in Hj.
  - injection Hj as <-. exists d. split; [reflexivity|]. split; [exact H|]. cbn. rewrite <- H, firstn_app, Nat.sub_diag, firstn_O, app_nil_r. apply firstn_all.
  - destruct (IH j t' Hj) as (d' & A & B & C). exists d'. split; [exact A|]. split; [exact B|]. rewrite <- C. f_equal. cbn.
    replace (size t + _)%nat with (List.length d + fold_right (fun t0 a => (size t0 + a)%nat) 0%nat (firstn j ts))%nat by (cbn; rewrite H; reflexivity).
    rewrite <- skipn_twice. f_equal. now rewrite skipn_app, skipn_all, Nat.sub_diag.
Qed.
Lemma slice_entries a k l x : slice a k l = x -> forall i, (i < k)%nat -> nth (a + i) l 0 = nth i x 0.
Proof. intros <- i Hi. now rewrite slice_nth. Qed.

(** ** C59 *)
Lemma zero_sized ts : sized jnt_nq ts (map joint_zero ts).
Proof. unfold sized. induction ts as [|t ts IH]; cbn; constructor; [destruct t; reflexivity|exact IH]. Qed.
Lemma joint_zero_spec m : wf_joints m -> m_jnt_type m <> [] ->
  exists q, get_joint_zero m = Ok q /\ List.length q = m_nq m /\
  (forall j, scalar_joint m j -> nth (qpos_of m j) q 0 = 0) /\ (forall j, free_joint m j -> vec_in q (qpos_of m j) = v3_zero) /\
  (forall j a, quat_address m j a -> quat_in q a = q_one).
Proof.
  intros Hw Hne. unfold get_joint_zero, concat_arrays. pose proof (zero_sized (m_jnt_type m)) as Hs.
  exists (List.concat (map joint_zero (m_jnt_type m))). split; [destruct (m_jnt_type m); [contradiction|reflexivity]|].
  pose proof Hw as (_ & _ & _ & Hnq & _). split; [rewrite Hnq; now apply sized_length|].
  assert (P : forall j t, joint_type m j t -> slice (qpos_of m j) (jnt_nq t) (List.concat (map joint_zero (m_jnt_type m))) = joint_zero t).
  { intros j t Hj. rewrite (qpos_pos m Hw j t Hj). destruct (sized_slice _ _ _ Hs j t Hj) as (d & A & _ & ->).
    rewrite nth_error_map, Hj in A. now injection A as <-. }
  set (q := List.concat (map joint_zero (m_jnt_type m))) in *. clearbody q.
  split; [|split].
  - intros j (t & Hj & Hs'). specialize (P j t Hj). rewrite <- (Nat.add_0_r (qpos_of m j)).
    rewrite (slice_entries _ _ _ _ P); destruct t; try discriminate; cbn; try lia; reflexivity.
  - intros j Hj. specialize (P j JFree Hj). unfold vec_in. rewrite <- (Nat.add_0_r (qpos_of m j)) at 1. now rewrite !(slice_entries _ _ _ _ P) by (cbn; lia).
  - intros j a [[Hj ->]|[Hj ->]]; pose proof (P j _ Hj) as E; unfold quat_in.
    + rewrite <- !Nat.add_assoc. now rewrite !(slice_entries _ _ _ _ E) by (cbn; lia).
    + rewrite <- (Nat.add_0_r (qpos_of m j)) at 1. now rewrite !(slice_entries _ _ _ _ E) by (cbn; lia).
Qed.
Lemma joint_zero_empty m : m_jnt_type m = [] -> get_joint_zero m = Err ValueError.
Proof. unfold get_joint_zero. now intros ->. Qed.

(** ** C60 *)
Definition diff_piece (eps : R) (t : jnttype) (q1 q2 : list R) (a : nat) : list R :=
  match t with
  | JFree => se3_log eps (se3_mul (se3_inv (mkS (quat_in q1 (a + 3)) (vec_in q1 a))) (mkS (quat_in q2 (a + 3)) (vec_in q2 a)))
  | JBall => v3_list (so3_log eps (q_mul (q_conj (quat_in q1 a)) (quat_in q2 a)))
  | _ => [nth a q1 0 - nth a q2 0]
  end.
Lemma slice1 a q : (a < List.length q)%nat -> slice a 1 q = [nth a q 0].
Proof.
  intros H. pose proof (slice_length a 1 q ltac:(lia)) as L. destruct (slice a 1 q) as [|x [|? ?]] eqn:E; try discriminate.
  pose proof (slice_nth a 1 0 q 0 ltac:(lia)) as N. rewrite E, Nat.add_0_r in N. cbn in N. now rewrite N.
Qed.
Lemma difference_from_spec eps ts : forall idx q1 q2, (idx + total jnt_nq ts <= List.length q1)%nat -> (idx + total jnt_nq ts <= List.length q2)%nat ->
  exists ds, difference_from eps ts idx q1 q2 = Ok ds /\ sized jnt_nv ts ds /\
  forall j t, nth_error ts j = Some t -> nth_error ds j = Some (diff_piece eps t q1 q2 (idx + pos jnt_nq ts j)).
Proof.
  unfold pos, total, sized. induction ts as [|t ts IH]; intros idx q1 q2 H1 H2.
  - exists []. split; [reflexivity|]. split; [constructor|]. intros [|j] t; discriminate.
  - cbn [fold_right] in H1, H2.
    destruct (IH (idx + jnt_nq t)%nat q1 q2 ltac:(lia) ltac:(lia)) as (ds & E & S & P).
    assert (D : difference_from eps (t :: ts) idx q1 q2 = Ok (diff_piece eps t q1 q2 idx :: ds)).
    { destruct t; cbn [difference_from jnt_nq] in *.
      - rewrite !vec_at_nth, !quat_at_nth by lia. cbn [bind]. rewrite E. cbn [bind]. unfold diff_piece, se3_rminus, quat_in, vec_in. now rewrite <- !Nat.add_assoc.
      - rewrite !quat_at_nth by lia. cbn [bind]. rewrite E. reflexivity.
      - rewrite !slice1 by lia. cbn [bc2 List.length Nat.eqb bind]. rewrite E. reflexivity.
      - rewrite !slice1 by lia. cbn [bc2 List.length Nat.eqb bind]. rewrite E. reflexivity. }
    exists (diff_piece eps t q1 q2 idx :: ds). split; [exact D|]. split; [constructor; [destruct t; reflexivity|exact S]|].
    intros [|j] t' Hj; cbn in Hj |- *.
    + injection Hj as <-. now rewrite Nat.add_0_r.
    + rewrite (P j t' Hj). do 2 f_equal. lia.
Qed.
Lemma difference_spec eps m q1 q2 : wf_joints m -> m_jnt_type m <> [] -> List.length q1 = m_nq m -> List.length q2 = m_nq m ->
  exists d, joint_difference eps m q1 q2 = Ok d /\ List.length d = m_nv m /\
  forall j t, joint_type m j t -> slice (dof_of m j) (jnt_nv t) d = diff_piece eps t q1 q2 (qpos_of m j).
Proof.
  intros Hw Hne L1 L2. pose proof Hw as (_ & _ & _ & Hnq & Hnv & _). unfold joint_difference.
  destruct (difference_from_spec eps (m_jnt_type m) 0 q1 q2) as (ds & -> & S & P); [lia|lia|]. cbn [bind].
  exists (List.concat ds). split; [unfold concat_arrays; destruct ds; [inversion S as [Hts|]; congruence|reflexivity]|].
  split; [rewrite Hnv; now apply sized_length|]. intros j t Hj. rewrite (dof_pos m Hw j t Hj), (qpos_pos m Hw j t Hj).
  destruct (sized_slice _ _ _ S j t Hj) as (x & A & _ & ->). rewrite (P j t Hj) in A. cbn in A. now injection A.
Qed.

(** *** Logarithms *)
Lemma so3_factor_nonzero eps q : 0 < eps <= 1 / 2 -> q_norm2 q = 1 -> q_im q <> v3_zero -> so3_factor eps q <> 0.
Proof.
  intros He Hq Hi. unfold so3_factor. set (n2 := v3_norm2 (q_im q)).
  assert (N : n2 = qx q * qx q + qy q * qy q + qz q * qz q) by reflexivity.
  assert (W : qw q * qw q = 1 - n2) by (unfold q_norm2 in Hq; lra).
  assert (P : 0 < n2).
  { pose proof (v3_norm2_nonneg (q_im q)) as P. fold n2 in P. destruct P as [P|P]; [exact P|]. elim Hi. apply v3_norm2_zero. now symmetry. }
  destruct (Rlt_dec n2 eps) as [T|T].
  - assert (w0 : qw q <> 0) by (intros E; rewrite E in W; lra).
    replace (2 / qw q - 2 / 3 * n2 / (qw q * qw q * qw q)) with (2 / qw q * (1 - n2 / (3 * (qw q * qw q)))) by (field; exact w0).
    apply Rmult_integral_contrapositive. split.
    + unfold Rdiv. apply Rmult_integral_contrapositive. split; [lra|now apply Rinv_neq_0_compat].
    + rewrite W. assert (n2 / (3 * (1 - n2)) < 1); [|lra]. apply (Rmult_lt_reg_r (3 * (1 - n2))); [lra|].
      unfold Rdiv. rewrite Rmult_assoc, Rinv_l by lra. lra.
  - assert (S : 0 < sqrt n2) by now apply sqrt_lt_R0. assert (I : 0 < / sqrt n2) by now apply Rinv_0_lt_compat. pose proof PI_RGT_0 as Hpi.
    destruct (Rlt_dec (Rabs (qw q)) eps) as [T'|T'].
    + unfold Rdiv. pose proof (Rmult_lt_0_compat _ _ Hpi I). destruct (Rlt_dec 0 (qw q)); intros Ez; lra.
    + assert (Wp : 0 < Rabs (qw q)) by lra. unfold Rdiv. apply Rmult_integral_contrapositive. split; [|lra].
      apply Rmult_integral_contrapositive. split; [lra|]. intros E. apply (f_equal tan) in E. rewrite tan_atan, tan_0 in E.
      assert (Q : 0 < / Rabs (qw q)) by now apply Rinv_0_lt_compat. pose proof (Rmult_lt_0_compat _ _ S Q). revert E. destruct (Rlt_dec (qw q) 0); intros E; lra.
Qed.
Lemma v3_scale_zero k v : k <> 0 -> v3_scale k v = v3_zero -> v = v3_zero.
Proof.
  intros Hk H. injection H as A B C. destruct v as [x y z]. cbn in *. apply Rmult_integral in A, B, C.
  unfold v3_zero. f_equal; tauto.
Qed.
Lemma so3_log_zero eps q : 0 < eps <= 1 / 2 -> q_norm2 q = 1 -> (so3_log eps q = v3_zero <-> q_im q = v3_zero).
Proof.
  intros He Hq. unfold so3_log. split.
  - intros H. destruct (Req_EM_T (v3_norm2 (q_im q)) 0) as [E|E]; [now apply v3_norm2_zero|].
    apply v3_scale_zero in H; [exact H|]. apply so3_factor_nonzero; auto. intros Z. apply E. rewrite Z. unfold v3_norm2, v3_dot, v3_zero. cbn. ring.
  - intros ->. unfold v3_scale, v3_zero. cbn. f_equal; ring.
Qed.
Lemma q_norm2_conj q : q_norm2 (q_conj q) = q_norm2 q.
Proof. unfold q_norm2, q_conj. cbn. ring. Qed.
Lemma quat_eta q : mkQ (qw q) (qx q) (qy q) (qz q) = q. Proof. now destruct q. Qed.
Lemma relative_rotation a b : q_norm2 a = 1 -> q_norm2 b = 1 -> (q_im (q_mul (q_conj a) b) = v3_zero <-> same_rotation a b).
Proof.
  intros Ha Hb. assert (R : q_mul a (q_mul (q_conj a) b) = b).
  { assert (G : q_mul a (q_mul (q_conj a) b) = mkQ (q_norm2 a * qw b) (q_norm2 a * qx b) (q_norm2 a * qy b) (q_norm2 a * qz b)) by (unfold q_mul, q_conj, q_norm2; cbn; f_equal; ring).
    rewrite G, Ha. destruct b; cbn; f_equal; ring. }
  assert (N : q_norm2 (q_mul (q_conj a) b) = 1) by (rewrite q_norm2_mul, q_norm2_conj, Ha, Hb; ring).
  split.
  - intros H. set (r := q_mul (q_conj a) b) in *. clearbody r. destruct r as [w x y z]. unfold q_im in H. cbn in H. injection H as -> -> ->.
    unfold q_norm2 in N. cbn in N. assert (W : w = 1 \/ w = -1) by (assert ((w - 1) * (w + 1) = 0) by lra; destruct (Rmult_integral _ _ H); [left|right]; lra).
    destruct W as [-> | ->]; [left|right]; rewrite <- R; destruct a; unfold q_mul, q_neg; cbn; f_equal; ring.
  - intros [-> | ->]; destruct b as [w x y z]; unfold q_mul, q_conj, q_neg, q_im, v3_zero; cbn; f_equal; ring.
Qed.
Lemma v_inv_zero eps t : 0 < eps -> v_inv eps v3_zero t = t.
Proof.
  intros He. unfold v_inv. assert (E : v3_norm2 v3_zero = 0) by (unfold v3_norm2, v3_dot, v3_zero; cbn; ring). rewrite E.
  destruct (Rlt_dec 0 eps) as [_|N]; [|contradiction]. destruct t as [x y z]. unfold v3_add, v3_sub, v3_scale, cross, v3_zero. cbn. f_equal; ring.
Qed.
Lemma q_mul_assoc a b c : q_mul (q_mul a b) c = q_mul a (q_mul b c).
Proof. unfold q_mul; cbn [qw qx qy qz]; f_equal; ring. Qed.
Lemma q_mul_conj_r a : q_norm2 a = 1 -> q_mul a (q_conj a) = q_one.
Proof. unfold q_mul, q_conj, q_norm2, q_one; cbn [qw qx qy qz]. intros H. f_equal; try ring. rewrite <- H. ring. Qed.
Lemma q_mul_conj_l a : q_norm2 a = 1 -> q_mul (q_conj a) a = q_one.
Proof. unfold q_mul, q_conj, q_norm2, q_one; cbn [qw qx qy qz]. intros H. f_equal; try ring. rewrite <- H. ring. Qed.
Lemma q_mul_one_l a : q_mul q_one a = a.
Proof. destruct a as [a1 a2 a3 a4]. unfold q_mul, q_one; cbn [qw qx qy qz]. f_equal; ring. Qed.
Lemma q_mul_one_r a : q_mul a q_one = a.
Proof. destruct a as [a1 a2 a3 a4]. unfold q_mul, q_one; cbn [qw qx qy qz]. f_equal; ring. Qed.
Lemma q_conj_conj a : q_conj (q_conj a) = a.
Proof. destruct a as [a1 a2 a3 a4]. unfold q_conj; cbn [qw qx qy qz]. f_equal; ring. Qed.
Lemma q_conj_mul a b : q_conj (q_mul a b) = q_mul (q_conj b) (q_conj a).
Proof. unfold q_mul, q_conj; cbn [qw qx qy qz]. f_equal; ring. Qed.
Lemma q_im_pure v : q_im (q_pure v) = v. Proof. now destruct v. Qed.
(** q (0, p) q* is again pure. *)
Lemma q_app_pure q p : q_mul (q_mul q (q_pure p)) (q_conj q) = q_pure (q_app q p).
Proof. unfold q_app, q_pure at 2, q_im. cbn [vx vy vz]. unfold q_mul, q_pure, q_conj. cbn [qw qx qy qz]. f_equal. ring. Qed.
Lemma q_app_mul a b p : q_app (q_mul a b) p = q_app a (q_app b p).
Proof. unfold q_app at 1 2. rewrite <- q_app_pure, q_conj_mul. now rewrite !q_mul_assoc. Qed.
Lemma q_app_one p : q_app q_one p = p.
Proof. unfold q_app. rewrite q_mul_one_l. replace (q_conj q_one) with q_one by (unfold q_conj, q_one; cbn [qw qx qy qz]; f_equal; ring). now rewrite q_mul_one_r, q_im_pure. Qed.
Lemma q_app_zero q : q_app q v3_zero = v3_zero.
Proof. unfold q_app, q_im, q_mul, q_pure, q_conj, v3_zero. cbn [qw qx qy qz vx vy vz]. f_equal; ring. Qed.
Lemma q_app_linear q k l a b : q_app q (v3_add (v3_scale k a) (v3_scale l b)) = v3_add (v3_scale k (q_app q a)) (v3_scale l (q_app q b)).
Proof. unfold q_app, q_im, q_mul, q_pure, q_conj, v3_add, v3_scale. cbn [qw qx qy qz vx vy vz]. f_equal; ring. Qed.
Lemma q_app_sub q a b : q_app q (v3_sub a b) = v3_sub (q_app q a) (q_app q b).
Proof. unfold q_app, q_im, q_mul, q_pure, q_conj, v3_sub. cbn [qw qx qy qz vx vy vz]. f_equal; ring. Qed.
Lemma q_app_zero_iff q p : q_norm2 q = 1 -> (q_app q p = v3_zero <-> p = v3_zero).
Proof.
  intros Hq. split; [|intros ->; apply q_app_zero]. intros H. apply (f_equal (q_app (q_conj q))) in H.
  now rewrite <- q_app_mul, q_mul_conj_l, q_app_one, q_app_zero in H.
Qed.
Lemma se3_rel_pos a b : s_pos (se3_mul (se3_inv a) b) = q_app (q_conj (s_rot a)) (v3_sub (s_pos b) (s_pos a)).
Proof. rewrite q_app_sub. unfold se3_mul, se3_inv. cbn [s_pos s_rot]. unfold v3_add, v3_neg, v3_sub. cbn [vx vy vz]. f_equal; ring. Qed.
Lemma v3_list_inj a b : v3_list a = v3_list b -> a = b.
Proof. destruct a, b. unfold v3_list. cbn. intros H. injection H as -> -> ->. reflexivity. Qed.
Lemma v3_sub_zero a b : v3_sub a b = v3_zero <-> a = b.
Proof. destruct a as [x y z], b as [x' y' z']. unfold v3_sub, v3_zero. cbn. split; [intros H; injection H; intros; f_equal; lra|intros H; injection H as -> -> ->; f_equal; ring]. Qed.
Lemma se3_log_zero eps T : 0 < eps <= 1 / 2 -> q_norm2 (s_rot T) = 1 -> (se3_log eps T = vzero 6 <-> q_im (s_rot T) = v3_zero /\ s_pos T = v3_zero).
Proof.
  intros He Hq. unfold se3_log. change (vzero 6) with (v3_list v3_zero ++ v3_list v3_zero). split.
  - intros H. assert (H' : v3_list (v_inv eps (so3_log eps (s_rot T)) (s_pos T)) = v3_list v3_zero /\ v3_list (so3_log eps (s_rot T)) = v3_list v3_zero).
    { revert H. generalize (v_inv eps (so3_log eps (s_rot T)) (s_pos T)) (so3_log eps (s_rot T)). intros [a1 a2 a3] [b1 b2 b3] H.
      unfold v3_list, v3_zero in *. cbn in H |- *. injection H as -> -> -> -> -> ->. split; reflexivity. }
    destruct H' as [A B]. apply v3_list_inj in A, B. rewrite B in A. rewrite v_inv_zero in A by lra. apply so3_log_zero in B; auto.
  - intros [A B]. apply (so3_log_zero eps _ He Hq) in A. rewrite A, B, v_inv_zero by lra. reflexivity.
Qed.
Lemma se3_rel_zero eps a b : 0 < eps <= 1 / 2 -> q_norm2 (s_rot a) = 1 -> q_norm2 (s_rot b) = 1 ->
  (se3_log eps (se3_mul (se3_inv a) b) = vzero 6 <-> same_rotation (s_rot a) (s_rot b) /\ s_pos a = s_pos b).
Proof.
  intros He Ha Hb. rewrite se3_log_zero; [|exact He|cbn; now rewrite q_norm2_mul, q_norm2_conj, Ha, Hb, Rmult_1_r].
  rewrite se3_rel_pos. cbn [se3_mul s_rot se3_inv]. rewrite relative_rotation by assumption.
  rewrite q_app_zero_iff by now rewrite q_norm2_conj. rewrite v3_sub_zero. intuition congruence.
Qed.
Lemma norm2_in q a : norm2_at q a = q_norm2 (quat_in q a). Proof. reflexivity. Qed.
Lemma slice_vzero a k n : (a + k <= n)%nat -> slice a k (vzero n) = vzero k.
Proof.
  intros H. apply list_ext; [rewrite slice_length by (rewrite vzero_length; exact H); now rewrite vzero_length|].
  intros i Hi. rewrite slice_length in Hi by (rewrite vzero_length; exact H). rewrite slice_nth by exact Hi. now rewrite !nth_vzero.
Qed.
Lemma slices_ext m (d d' : list R) : wf_joints m -> List.length d = m_nv m -> List.length d' = m_nv m ->
  (forall j t, joint_type m j t -> slice (dof_of m j) (jnt_nv t) d = slice (dof_of m j) (jnt_nv t) d') -> d = d'.
Proof.
  intros Hw L1 L2 H. apply list_ext; [congruence|]. intros i Hi. rewrite L1 in Hi. pose proof Hw as (_ & _ & _ & _ & Hnv & _). rewrite Hnv in Hi.
  destruct (cover _ _ _ Hi) as (j & t & Hj & Hr). specialize (H j t Hj). rewrite <- (dof_pos m Hw j t Hj) in Hr.
  replace i with (dof_of m j + (i - dof_of m j))%nat by lia. rewrite <- !(slice_nth (dof_of m j) (jnt_nv t)) by lia. now rewrite H.
Qed.
Lemma difference_zero eps m q1 q2 d : wf_joints m -> 0 < eps <= 1 / 2 -> List.length q1 = m_nq m -> List.length q2 = m_nq m ->
  normalised m q1 -> normalised m q2 -> joint_difference eps m q1 q2 = Ok d -> (d = vzero (m_nv m) <-> same_pose m q1 q2).
Proof.
  intros Hw He L1 L2 N1 N2 Hd. assert (Hne : m_jnt_type m <> []) by (intros E; unfold joint_difference in Hd; rewrite E in Hd; discriminate).
  destruct (difference_spec eps m q1 q2 Hw Hne L1 L2) as (d' & E & Ld & P). rewrite Hd in E. injection E as <-.
  assert (Z : d = vzero (m_nv m) <-> forall j t, joint_type m j t -> diff_piece eps t q1 q2 (qpos_of m j) = vzero (jnt_nv t)).
  { split.
    - intros -> j t Hj. rewrite <- (P j t Hj). apply slice_vzero. now apply (dof_end m Hw).
    - intros H. apply (slices_ext m); [exact Hw|exact Ld|apply vzero_length|]. intros j t Hj. rewrite (P j t Hj), (H j t Hj). symmetry. apply slice_vzero. now apply (dof_end m Hw). }
  rewrite Z. split.
  - intros H. split; [|split].
    + intros j (t & Hj & Hs). specialize (H j t Hj). destruct t; try discriminate; cbn in H; injection H; lra.
    + intros j Hj. specialize (H j JFree Hj). cbn [diff_piece] in H. apply se3_rel_zero in H; [destruct H as [_ H]; exact H|exact He| |];
        cbn [s_rot]; rewrite <- norm2_in; [apply (N1 j)|apply (N2 j)]; left; auto.
    + intros j a [[Hj ->]|[Hj ->]].
      * specialize (H j JFree Hj). cbn [diff_piece] in H. apply se3_rel_zero in H; [destruct H as [H _]; exact H|exact He| |];
        cbn [s_rot]; rewrite <- norm2_in; [apply (N1 j)|apply (N2 j)]; left; auto.
      * specialize (H j JBall Hj). cbn [diff_piece jnt_nv] in H. change (vzero 3) with (v3_list v3_zero) in H. apply v3_list_inj in H.
        assert (A : norm2_at q1 (qpos_of m j) = 1) by (apply (N1 j); right; auto). assert (B : norm2_at q2 (qpos_of m j) = 1) by (apply (N2 j); right; auto).
        rewrite norm2_in in A, B. apply so3_log_zero in H; [|exact He|rewrite q_norm2_mul, q_norm2_conj, A, B; ring]. now apply relative_rotation in H.
  - intros (S1 & S2 & S3) j t Hj. destruct t; cbn [diff_piece jnt_nv].
    + apply se3_rel_zero; [exact He| | |]; cbn [s_rot s_pos].
      * rewrite <- norm2_in. apply (N1 j). left; auto.
      * rewrite <- norm2_in. apply (N2 j). left; auto.
      * split; [apply (S3 j); left; auto|apply S2, Hj].
    + assert (A : norm2_at q1 (qpos_of m j) = 1) by (apply (N1 j); right; auto). assert (B : norm2_at q2 (qpos_of m j) = 1) by (apply (N2 j); right; auto).
      rewrite norm2_in in A, B. change (vzero 3) with (v3_list v3_zero). f_equal. apply so3_log_zero; [exact He|rewrite q_norm2_mul, q_norm2_conj, A, B; ring|].
      apply relative_rotation; auto. apply (S3 j). right; auto.
    + rewrite (S1 j) by (eexists; eauto). cbn. f_equal. ring.
    + rewrite (S1 j) by (eexists; eauto). cbn. f_equal. ring.
Qed.
