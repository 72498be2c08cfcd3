(** Integration joint by joint, and the joint components under integration. *)
From Verif Require Import Base Lin LinFacts Mjx Typing Component SpecComponent SpecJoint SpecHistory JointFacts BindFacts3 Rot Conf IntegrateFacts FrameJac Collide JaxComponents SpecMotion.
Open Scope R_scope.

(** ** Reading vectors and quaternions out of an array *)
Lemma slice_nth {A} (a k i : nat) (l : list A) d : (i < k)%nat -> nth i (slice a k l) d = nth (a + i) l d.
Proof.
  intros H. unfold slice. revert a k i H. intros a. revert l. induction a as [|a IH]; intros l k i H.
  - cbn [skipn Nat.add]. revert i l H. induction k as [|k IHk]; intros i l H; [lia|]. destruct l as [|x l]; [cbn; now destruct i|].
    destruct i as [|i]; [reflexivity|]. cbn. apply IHk. lia.
  - destruct l as [|x l]; [cbn [skipn]; rewrite firstn_nil; destruct i, a; reflexivity|]. cbn. now apply IH.
Qed.
Lemma slice_length {A} (a k : nat) (l : list A) : (a + k <= List.length l)%nat -> List.length (slice a k l) = k.
Proof. intros H. unfold slice. rewrite firstn_length, skipn_length. lia. Qed.
Lemma vec_at_nth a q : (a + 3 <= List.length q)%nat -> vec_at a q = Ok (mkV (nth a q 0) (nth (a + 1) q 0) (nth (a + 2) q 0)).
Proof.
  intros H. unfold vec_at. pose proof (slice_length a 3 q H) as L. pose proof (fun i Hi => slice_nth a 3 i q 0 Hi) as N.
  destruct (slice a 3 q) as [|x [|y [|z [|? ?]]]]; try discriminate. cbn [v3_of].
  rewrite <- (N 1%nat), <- (N 2%nat) by lia. specialize (N 0%nat ltac:(lia)). rewrite Nat.add_0_r in N. rewrite <- N. reflexivity.
Qed.
Lemma quat_at_nth a q : (a + 4 <= List.length q)%nat -> quat_at a q = Ok (mkQ (nth a q 0) (nth (a + 1) q 0) (nth (a + 2) q 0) (nth (a + 3) q 0)).
Proof.
  intros H. unfold quat_at. pose proof (slice_length a 4 q H) as L. pose proof (fun i Hi => slice_nth a 4 i q 0 Hi) as N.
  destruct (slice a 4 q) as [|x [|y [|z [|w [|? ?]]]]]; try discriminate. cbn [q_of].
  rewrite <- (N 1%nat), <- (N 2%nat), <- (N 3%nat) by lia. specialize (N 0%nat ltac:(lia)). rewrite Nat.add_0_r in N. rewrite <- N. reflexivity.
Qed.
Lemma nth_skipn {A} (a i : nat) (l : list A) d : nth i (skipn a l) d = nth (a + i) l d.
Proof. revert l. induction a as [|a IH]; intros [|x l]; cbn; try reflexivity; [now destruct i|apply IH]. Qed.
Lemma skipn_twice {A} a b (l : list A) : skipn b (skipn a l) = skipn (a + b) l.
Proof. revert l. induction a as [|a IH]; intros [|x l]; cbn; try reflexivity; [now rewrite skipn_nil|apply IH]. Qed.
Lemma slice_skipn {A} a b k (l : list A) : slice b k (skipn a l) = slice (a + b) k l.
Proof. unfold slice. f_equal. revert l. induction a as [|a IH]; intros [|x l]; cbn; try reflexivity; [now rewrite skipn_nil|apply IH]. Qed.

(** ** Quaternions *)
Lemma q_norm2_mul a b : q_norm2 (q_mul a b) = q_norm2 a * q_norm2 b.
Proof. unfold q_norm2, q_mul. cbn. ring. Qed.
Lemma q_norm2_nonneg a : 0 <= q_norm2 a.
Proof. unfold q_norm2. pose proof (Rle_0_sqr (qw a)). pose proof (Rle_0_sqr (qx a)). pose proof (Rle_0_sqr (qy a)). pose proof (Rle_0_sqr (qz a)). unfold Rsqr in *. lra. Qed.
Lemma q_normalize_norm q : q_norm2 q <> 0 -> q_norm2 (q_normalize q) = 1.
Proof.
  intros H. pose proof (q_norm2_nonneg q) as P. set (n := sqrt (q_norm2 q)).
  assert (Hn : n <> 0) by (intros E; apply H; apply sqrt_eq_0 in E; auto).
  assert (Hs : n * n = q_norm2 q) by (apply sqrt_sqrt; exact P).
  unfold q_normalize. fold n. unfold safe_div. destruct (Req_EM_T n 0) as [E|_]; [contradiction|]. unfold q_norm2 at 1. cbn [qw qx qy qz].
  rewrite Rplus_0_r.
  replace (qw q / n * (qw q / n) + qx q / n * (qx q / n) + qy q / n * (qy q / n) + qz q / n * (qz q / n)) with (q_norm2 q / (n * n)) by (unfold q_norm2; field; exact Hn).
  rewrite Hs. now field.
Qed.
Lemma q_normalize_unit q : q_norm2 q = 1 -> q_normalize q = q.
Proof.
  intros H. unfold q_normalize. rewrite H, sqrt_1. unfold safe_div. destruct (Req_EM_T 1 0); [lra|].
  destruct q as [a b c d]. cbn. f_equal; field.
Qed.
Lemma v3_norm2_nonneg a : 0 <= v3_norm2 a.
Proof. unfold v3_norm2, v3_dot. pose proof (Rle_0_sqr (vx a)). pose proof (Rle_0_sqr (vy a)). pose proof (Rle_0_sqr (vz a)). unfold Rsqr in *. lra. Qed.
Lemma v3_norm2_zero v : v3_norm2 v = 0 -> v = v3_zero.
Proof.
  unfold v3_norm2, v3_dot. destruct v as [x y z]; cbn. intros H.
  pose proof (Rle_0_sqr x). pose proof (Rle_0_sqr y). pose proof (Rle_0_sqr z). unfold Rsqr in *.
  assert (x * x = 0) by lra. assert (y * y = 0) by lra. assert (z * z = 0) by lra.
  unfold v3_zero. f_equal; apply Rmult_integral in H3, H4, H5; tauto.
Qed.
(** The rotation quaternion of one step has norm one. *)
Lemma step_quat_unit v dt : let n := sqrt (v3_norm2 v) in
  q_norm2 (mkQ (cos (dt * n * (1 / 2))) (safe_div (vx v) n * sin (dt * n * (1 / 2))) (safe_div (vy v) n * sin (dt * n * (1 / 2))) (safe_div (vz v) n * sin (dt * n * (1 / 2)))) = 1.
Proof.
  cbv zeta. set (n := sqrt (v3_norm2 v)). pose proof (v3_norm2_nonneg v) as P. set (th := dt * n * (1 / 2)).
  pose proof (sin2_cos2 th) as T. unfold Rsqr in T. unfold q_norm2. cbn [qw qx qy qz]. unfold safe_div. destruct (Req_EM_T n 0) as [E|E].
  - assert (Z : v = v3_zero) by (apply v3_norm2_zero, sqrt_eq_0; auto). assert (Ht : th = 0) by (unfold th; rewrite E; ring). rewrite Z. cbn.
    rewrite Ht, cos_0, sin_0. field. lra.
  - assert (Hs : n * n = v3_norm2 v) by (apply sqrt_sqrt; exact P). rewrite Rplus_0_r.
    replace (_ + _ + _ + _) with (cos th * cos th + v3_norm2 v / (n * n) * (sin th * sin th)) by (unfold v3_norm2, v3_dot; field; exact E).
    rewrite <- Hs. replace (n * n / (n * n)) with 1 by (field; exact E). lra.
Qed.
Lemma quat_integrate_norm q v dt : q_norm2 q <> 0 -> q_norm2 (quat_integrate q v dt) = 1.
Proof.
  intros H. unfold quat_integrate. apply q_normalize_norm. rewrite q_norm2_mul. cbn [vx vy vz].
  pose proof (step_quat_unit v dt) as S. cbv zeta in S. rewrite S. lra.
Qed.
Lemma quat_integrate_zero q dt : q_norm2 q = 1 -> quat_integrate q v3_zero dt = q.
Proof.
  intros H. unfold quat_integrate. replace (v3_norm2 v3_zero) with 0 by (unfold v3_norm2, v3_dot; cbn; ring). rewrite sqrt_0.
  replace (dt * 0 * (1 / 2)) with 0 by ring. rewrite cos_0, sin_0. cbn [vx vy vz v3_zero]. rewrite !Rmult_0_r.
  replace (q_mul q (mkQ 1 0 0 0)) with q by (destruct q; unfold q_mul; cbn; f_equal; ring). now apply q_normalize_unit.
Qed.

(** ** Integration *)
Definition pos (size : jnttype -> nat) (ts : list jnttype) (j : nat) : nat := total size (firstn j ts).
Lemma adrs_pos size ts : forall k j, (j < List.length ts)%nat -> nth j (adrs size k ts) 0%nat = (k + pos size ts j)%nat.
Proof.
  unfold pos, total. induction ts as [|t ts IH]; intros k j H; cbn in H; [lia|]. destruct j as [|j]; cbn; [lia|].
  rewrite IH by lia. cbn. lia.
Qed.
Lemma pos_end size ts : forall j t, nth_error ts j = Some t -> (pos size ts j + size t <= total size ts)%nat.
Proof.
  unfold pos, total. induction ts as [|t' ts IH]; intros j t H; [destruct j; discriminate|]. destruct j as [|j]; cbn in *.
  - injection H as <-. lia.
  - specialize (IH _ _ H). cbn in IH. lia.
Qed.
Lemma integrate_joint_ok t q v dt : (jnt_nq t <= List.length q)%nat -> (jnt_nv t <= List.length v)%nat ->
  exists x, integrate_joint t q v dt = Ok x /\ List.length x = jnt_nq t.
Proof.
  intros Hq Hv. unfold integrate_joint. destruct t; cbn [jnt_nq jnt_nv] in *.
  - rewrite !vec_at_nth, quat_at_nth by lia. cbn [bind]. eexists. split; reflexivity.
  - rewrite !vec_at_nth, quat_at_nth by lia. cbn [bind]. eexists. split; reflexivity.
  - destruct q, v; cbn in *; try lia. eexists. split; reflexivity.
  - destruct q, v; cbn in *; try lia. eexists. split; reflexivity.
Qed.
Lemma integrate_segments ts : forall q v dt, List.length q = total jnt_nq ts -> List.length v = total jnt_nv ts ->
  exists q', integrate_from ts q v dt = Ok q' /\ List.length q' = total jnt_nq ts /\
  forall j t, nth_error ts j = Some t ->
    integrate_joint t (skipn (pos jnt_nq ts j) q) (skipn (pos jnt_nv ts j) v) dt = Ok (slice (pos jnt_nq ts j) (jnt_nq t) q').
Proof.
  induction ts as [|t ts IH]; intros q v dt Hq Hv.
  - exists []. split; [reflexivity|]. split; [reflexivity|]. intros [|j] t H; discriminate.
  - assert (S : forall (size : jnttype -> nat), total size (t :: ts) = (size t + total size ts)%nat) by reflexivity. rewrite S in Hq, Hv.
    destruct (integrate_joint_ok t q v dt) as (x & Hx & Lx); [lia|lia|].
    destruct (IH (skipn (jnt_nq t) q) (skipn (jnt_nv t) v) dt) as (r & Hr & Lr & Hj); [rewrite skipn_length; lia|rewrite skipn_length; lia|].
    exists (x ++ r). cbn [integrate_from]. rewrite Hx. cbn [bind]. rewrite Hr. split; [reflexivity|]. split; [rewrite app_length, S; congruence|].
    intros [|j] t' H.
    + injection H as <-. change (pos ?s (t :: ts) 0) with 0%nat. cbn [skipn]. rewrite Hx. f_equal. unfold slice. cbn [skipn].
      rewrite <- Lx, firstn_app, Nat.sub_diag, firstn_all. cbn. now rewrite app_nil_r.
    + cbn in H. assert (P : forall size, pos size (t :: ts) (Datatypes.S j) = (size t + pos size ts j)%nat) by reflexivity. rewrite !P.
      specialize (Hj _ _ H). rewrite !skipn_twice in Hj. rewrite Hj. f_equal.
      unfold slice. rewrite <- Lx. rewrite skipn_app.
      rewrite (skipn_all2 x) by lia. cbn [app]. do 2 f_equal. lia.
Qed.

Section Integrate.
Context (m : mjmodel) (Hw : wf_joints m).
Lemma qpos_pos j t : joint_type m j t -> qpos_of m j = pos jnt_nq (m_jnt_type m) j.
Proof. intros H. destruct Hw as (_ & Hq & _). unfold qpos_of. rewrite Hq, adrs_pos; [reflexivity|]. apply nth_error_Some. unfold joint_type in H. congruence. Qed.
Lemma dof_pos j t : joint_type m j t -> dof_of m j = pos jnt_nv (m_jnt_type m) j.
Proof. intros H. destruct Hw as (_ & _ & Hv & _). unfold dof_of. rewrite Hv, adrs_pos; [reflexivity|]. apply nth_error_Some. unfold joint_type in H. congruence. Qed.
Lemma qpos_end j t : joint_type m j t -> (qpos_of m j + jnt_nq t <= m_nq m)%nat.
Proof. intros H. rewrite (qpos_pos _ _ H). destruct Hw as (_ & _ & _ & -> & _). now apply pos_end. Qed.
Lemma dof_end j t : joint_type m j t -> (dof_of m j + jnt_nv t <= m_nv m)%nat.
Proof. intros H. rewrite (dof_pos _ _ H). destruct Hw as (_ & _ & _ & _ & -> & _). now apply pos_end. Qed.

Lemma integrate_spec q v dt : List.length q = m_nq m -> List.length v = m_nv m ->
  exists q', integrate m q v dt = Ok q' /\ List.length q' = m_nq m /\
  (forall j t, joint_type m j t -> is_scalar t = true -> nth (qpos_of m j) q' 0 = nth (qpos_of m j) q 0 + dt * nth (dof_of m j) v 0) /\
  (forall j i, joint_type m j JFree -> (i < 3)%nat -> nth (qpos_of m j + i) q' 0 = nth (qpos_of m j + i) q 0 + dt * nth (dof_of m j + i) v 0) /\
  (forall j a, quat_address m j a -> norm2_at q a <> 0 -> norm2_at q' a = 1) /\
  (forall j a k, quat_address m j a -> (k < 4)%nat -> norm2_at q a = 1 -> (forall i, (i < m_nv m)%nat -> nth i v 0 = 0) -> nth (a + k) q' 0 = nth (a + k) q 0).
Proof.
  intros Hq Hv. pose proof Hw as (_ & _ & _ & Hnq & Hnv & _). destruct (integrate_segments (m_jnt_type m) q v dt) as (q' & Hi & Lq & Hj); [congruence|congruence|].
  exists q'. split; [rewrite integrate_sized by (rewrite ?Hq, ?Hv, <- ?Hnq, <- ?Hnv; apply Nat.le_refl); exact Hi|]. split; [congruence|].
  assert (SG : forall j t, joint_type m j t -> integrate_joint t (skipn (qpos_of m j) q) (skipn (dof_of m j) v) dt = Ok (slice (qpos_of m j) (jnt_nq t) q')).
  { intros j t H. rewrite (qpos_pos _ _ H), (dof_pos _ _ H). now apply Hj. }
  assert (SC : forall j t, joint_type m j t -> is_scalar t = true -> nth (qpos_of m j) q' 0 = nth (qpos_of m j) q 0 + dt * nth (dof_of m j) v 0).
  { intros j t H Hs. specialize (SG j t H). pose proof (qpos_end j t H) as E1. pose proof (dof_end j t H) as E2.
    assert (E : jnt_nq t = 1%nat /\ jnt_nv t = 1%nat /\ integrate_joint t (skipn (qpos_of m j) q) (skipn (dof_of m j) v) dt = match skipn (qpos_of m j) q, skipn (dof_of m j) v with x :: _, w :: _ => Ok [x + dt * w] | _, _ => Err TypeError end) by (destruct t; try discriminate; auto).
    destruct E as (En & En' & E). rewrite En in *. rewrite En' in *. rewrite E in SG. clear E.
    assert (A : nth 0 (skipn (qpos_of m j) q) 0 = nth (qpos_of m j) q 0) by (rewrite nth_skipn, Nat.add_0_r; reflexivity).
    assert (B : nth 0 (skipn (dof_of m j) v) 0 = nth (dof_of m j) v 0) by (rewrite nth_skipn, Nat.add_0_r; reflexivity).
    assert (C : nth 0 (slice (qpos_of m j) 1 q') 0 = nth (qpos_of m j) q' 0) by (rewrite slice_nth, Nat.add_0_r by lia; reflexivity).
    destruct (skipn (qpos_of m j) q) as [|x ?] eqn:Eq; [discriminate|]. destruct (skipn (dof_of m j) v) as [|w ?] eqn:Ev; [discriminate|].
    injection SG as SG. cbn in A, B. rewrite <- C, <- SG, <- A, <- B. reflexivity. }
  assert (FR : forall j, joint_type m j JFree -> exists x, slice (qpos_of m j) 7 q' =
     v3_list (v3_add (mkV (nth (qpos_of m j + 0) q 0) (nth (qpos_of m j + 1) q 0) (nth (qpos_of m j + 2) q 0)) (v3_scale dt (mkV (nth (dof_of m j + 0) v 0) (nth (dof_of m j + 1) v 0) (nth (dof_of m j + 2) v 0)))) ++ q_list x /\
     x = quat_integrate (mkQ (nth (qpos_of m j + 3) q 0) (nth (qpos_of m j + 3 + 1) q 0) (nth (qpos_of m j + 3 + 2) q 0) (nth (qpos_of m j + 3 + 3) q 0))
           (mkV (nth (dof_of m j + 3) v 0) (nth (dof_of m j + 4) v 0) (nth (dof_of m j + 5) v 0)) dt).
  { intros j H. specialize (SG j _ H). pose proof (qpos_end j _ H) as E1. pose proof (dof_end j _ H) as E2. cbn [jnt_nq jnt_nv] in *.
    unfold integrate_joint in SG. rewrite !vec_at_nth, quat_at_nth in SG by (rewrite skipn_length; lia). cbn [bind] in SG. injection SG as SG.
    rewrite !nth_skipn in SG. rewrite <- !Nat.add_assoc. cbn [Nat.add] in *. eexists. split; [symmetry; exact SG|reflexivity]. }
  assert (BA : forall j, joint_type m j JBall -> exists x, slice (qpos_of m j) 4 q' = q_list x /\
     x = quat_integrate (mkQ (nth (qpos_of m j) q 0) (nth (qpos_of m j + 1) q 0) (nth (qpos_of m j + 2) q 0) (nth (qpos_of m j + 3) q 0))
           (mkV (nth (dof_of m j + 0) v 0) (nth (dof_of m j + 1) v 0) (nth (dof_of m j + 2) v 0)) dt).
  { intros j H. specialize (SG j _ H). pose proof (qpos_end j _ H) as E1. pose proof (dof_end j _ H) as E2. cbn [jnt_nq jnt_nv] in *.
    unfold integrate_joint in SG. rewrite !vec_at_nth, quat_at_nth in SG by (rewrite skipn_length; lia). cbn [bind] in SG. injection SG as SG.
    rewrite !nth_skipn in SG. cbn [Nat.add] in *. rewrite !(Nat.add_0_r (qpos_of m j)) in SG. eexists. split; [symmetry; exact SG|reflexivity]. }
  assert (QA : forall j a, quat_address m j a -> exists x w, (forall k, (k < 4)%nat -> nth (a + k) q' 0 = nth k (q_list x) 0) /\
     x = quat_integrate (mkQ (nth a q 0) (nth (a + 1) q 0) (nth (a + 2) q 0) (nth (a + 3) q 0)) w dt /\ ((forall i, (i < m_nv m)%nat -> nth i v 0 = 0) -> w = v3_zero)).
  { intros j a [[H ->]|[H ->]].
    - destruct (FR j H) as (x & E & Ex). pose proof (dof_end j _ H) as E2. cbn [jnt_nv] in E2. exists x. eexists. split; [|split; [exact Ex|]].
      + intros k Hk. rewrite <- Nat.add_assoc, <- (slice_nth (qpos_of m j) 7) by lia. rewrite E. destruct k as [|[|[|[|k]]]]; try reflexivity; lia.
      + intros Z. rewrite !Z by lia. reflexivity.
    - destruct (BA j H) as (x & E & Ex). pose proof (dof_end j _ H) as E2. cbn [jnt_nv] in E2. exists x. eexists. split; [|split; [exact Ex|]].
      + intros k Hk. rewrite <- (slice_nth (qpos_of m j) 4) by lia. now rewrite E.
      + intros Z. rewrite !Z by lia. reflexivity. }
  split; [exact SC|]. split.
  { intros j i H Hi3. destruct (FR j H) as (x & E & _). rewrite <- (slice_nth (qpos_of m j) 7) by lia. rewrite E.
    destruct i as [|[|[|i]]]; cbn; try reflexivity; lia. }
  split.
  - intros j a H Hn. destruct (QA j a H) as (x & w & Hk & Ex & _).
    assert (N : q_norm2 x = 1) by (rewrite Ex; apply quat_integrate_norm; exact Hn).
    unfold norm2_at. rewrite !Hk by lia. specialize (Hk 0%nat ltac:(lia)). rewrite Nat.add_0_r in Hk. rewrite Hk. exact N.
  - intros j a k H Hk4 Hn Z. destruct (QA j a H) as (x & w & Hk & Ex & Hz). rewrite Hk by lia. rewrite (Hz Z) in Ex.
    rewrite quat_integrate_zero in Ex by exact Hn. rewrite Ex. destruct k as [|[|[|[|k]]]]; cbn; rewrite ?Nat.add_0_r; try reflexivity; lia.
Qed.
End Integrate.
