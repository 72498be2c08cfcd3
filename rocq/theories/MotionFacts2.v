(** Joint task and joint barrier under integration. *)
From Verif Require Import Base Lin LinFacts Mjx Typing Component SpecComponent ComponentFacts ComponentFacts2 SpecJoint SpecHistory JointFacts BindFacts BindFacts3 Rot Conf FrameJac Collide JaxComponents SpecMotion MotionFacts.
Open Scope R_scope.

Lemma cover size ts : forall i, (i < total size ts)%nat -> exists j t, nth_error ts j = Some t /\ (pos size ts j <= i < pos size ts j + size t)%nat.
Proof.
  unfold pos, total. induction ts as [|t ts IH]; intros i H; cbn in H; [lia|]. destruct (Nat.lt_ge_cases i (size t)) as [C|C].
  - exists 0%nat, t. cbn. split; [reflexivity|lia].
  - destruct (IH (i - size t)%nat) as (j & t' & H1 & H2); [lia|]. exists (S j), t'. cbn in *. split; [exact H1|lia].
Qed.
Lemma integrate_zero m q dt : wf_joints m -> List.length q = m_nq m -> normalised m q -> integrate m q (vzero (m_nv m)) dt = Ok q.
Proof.
  intros Hw Hq Hn. destruct (integrate_spec m Hw q (vzero (m_nv m)) dt Hq) as (q' & Hi & Lq & S & F & _ & Z); [apply vzero_length|].
  rewrite Hi. f_equal. apply list_ext; [congruence|]. intros i Hil. rewrite Lq in Hil. pose proof Hw as (_ & _ & _ & Hnq & _). rewrite Hnq in Hil.
  destruct (cover _ _ _ Hil) as (j & t & Hj & Hr). change (joint_type m j t) in Hj. rewrite <- (qpos_pos m Hw j t Hj) in Hr.
  assert (VZ : forall k, nth k (vzero (m_nv m)) 0 = 0) by (intros; apply nth_vzero).
  assert (QZ : forall a k, quat_address m j a -> (k < 4)%nat -> nth (a + k) q' 0 = nth (a + k) q 0).
  { intros a k Ha Hk. apply (Z j a k Ha Hk); [exact (Hn j a Ha)|auto]. }
  destruct t; cbn [jnt_nq] in Hr.
  - destruct (Nat.lt_ge_cases i (qpos_of m j + 3)).
    + replace i with (qpos_of m j + (i - qpos_of m j))%nat by lia. rewrite F by (exact Hj || lia). rewrite VZ. ring.
    + replace i with (qpos_of m j + 3 + (i - qpos_of m j - 3))%nat by lia. apply QZ; [left; auto|lia].
  - replace i with (qpos_of m j + (i - qpos_of m j))%nat by lia. apply QZ; [right; auto|lia].
  - replace i with (qpos_of m j) by lia. rewrite (S j _ Hj eq_refl). rewrite VZ. ring.
  - replace i with (qpos_of m j) by lia. rewrite (S j _ Hj eq_refl). rewrite VZ. ring.
Qed.

(** ** Gathering in range *)
Lemma jx_idx_in {A} (l : list A) (i : nat) d : (i < List.length l)%nat -> jx_idx l (Z.of_nat i) = Ok (nth i l d).
Proof.
  intros H. unfold jx_idx. replace (Z.of_nat i <? 0)%Z with false by (symmetry; apply Z.ltb_ge; lia).
  replace (Z.max 0 (Z.min (Z.of_nat i) (Z.of_nat (List.length l) - 1)))%Z with (Z.of_nat i) by lia. rewrite Nat2Z.id.
  rewrite (nth_error_nth' l d H). reflexivity.
Qed.
Lemma gather_in {A} (l : list A) (is : list nat) d : Forall (fun i => (i < List.length l)%nat) is ->
  jx_gather l (map Z.of_nat is) = Ok (map (fun i => nth i l d) is).
Proof.
  intros H. unfold jx_gather. induction H as [|i is Hi _ IH]; [reflexivity|]. cbn. rewrite (jx_idx_in l i d Hi). cbn. now rewrite IH.
Qed.
Lemma sel_row_in n i : (i < n)%nat -> sel_row n (Z.of_nat i) = unit_row n i.
Proof.
  intros H. unfold sel_row. replace (Z.of_nat i <? 0)%Z with false by (symmetry; apply Z.ltb_ge; lia). rewrite Nat2Z.id.
  replace (Z.of_nat n <=? Z.of_nat i)%Z with false by (symmetry; apply Z.leb_gt; lia).
  replace (Z.of_nat i <? 0)%Z with false by (symmetry; apply Z.ltb_ge; lia). reflexivity.
Qed.
Lemma sel_matrix_in n is : Forall (fun i => (i < n)%nat) is ->
  sel_matrix (Z.of_nat (List.length is)) n (map Z.of_nat is) = Ok (map (unit_row n) is).
Proof.
  intros H. unfold sel_matrix, zsize. replace (Z.of_nat (List.length is) <? 0)%Z with false by (symmetry; apply Z.ltb_ge; lia).
  cbn [bind]. rewrite Nat2Z.id, map_length, Nat.eqb_refl. f_equal. rewrite map_map. apply map_ext_in. intros i Hi. apply sel_row_in.
  rewrite Forall_forall in H. auto.
Qed.
Lemma unit_rows_mat n is : is_mat (List.length is) n (map (unit_row n) is).
Proof. split; [apply map_length|]. apply Forall_forall. intros r Hr. apply in_map_iff in Hr as (i & <- & _). apply unit_row_length. Qed.
Lemma mv_units n is v : Forall (fun i => (i < n)%nat) is -> List.length v = n -> mv (map (unit_row n) is) v = map (fun i => nth i v 0) is.
Proof.
  intros H Hv. unfold mv. rewrite map_map. apply map_ext_in. intros i Hi. apply dot_unit_row; [|exact Hv]. rewrite Forall_forall in H. auto.
Qed.

(** ** Compiled joint components *)
Definition jt_facts (fm : option (list Z)) (j : jaxc) : Prop :=
  let m := j_model j in let n := List.length (selected m fm) in
  wf_joints m /\ mask_fits m fm /\ j_dim j = Z.of_nat n /\ j_mask_idxs j = vidx_of m fm /\ List.length (j_gain j) = n /\
  exists W lm t, j_ext j = JTask W lm (JTJoint t (qidx_of m fm)) /\ last_dim t = Ok n.
Definition jb_facts (fm : option (list Z)) (j : jaxc) : Prop :=
  let m := j_model j in let n := List.length (selected m fm) in
  wf_joints m /\ mask_fits m fm /\ j_dim j = (2 * Z.of_nat n)%Z /\ j_mask_idxs j = vidx_of m fm /\ List.length (j_gain j) = (2 * n)%nat /\
  exists s lo hi, j_ext j = JBarrier s (JBJoint lo hi (qidx_of m fm)).

Lemma vector_gain_length a g d : vector_gain a = Ok g -> a_dim a = Z.of_nat d -> List.length g = d.
Proof.
  unfold vector_gain, dim. intros H E. rewrite E in H. replace (Z.of_nat d =? -1)%Z with false in H by (symmetry; apply Z.eqb_neq; lia).
  destruct (ndim (a_gain a)) as [|[|k]]; cbn [bind] in H; [| |discriminate].
  - unfold zsize in H. replace (Z.of_nat d <? 0)%Z with false in H by (symmetry; apply Z.ltb_ge; lia). cbn [bind] in H. rewrite Nat2Z.id in H.
    destruct (scalar_of (a_gain a)); [|discriminate]. cbn [bind] in H. injection H as <-. apply vconst_length.
  - destruct (Z.of_nat (List.length (t_data (a_gain a))) =? Z.of_nat d)%Z eqn:E'; [|discriminate]. apply Z.eqb_eq in E'. cbn in H. injection H as <-. lia.
Qed.

Lemma published_masked c j mk : published c j -> a_mask (c_at c) = Some mk -> j_mask_idxs j = a_mask_idxs (c_at c).
Proof.
  intros (_ & _ & _ & _ & _ & H & _) E. rewrite mask_idxs_fst in H. unfold forced in H. rewrite E in H. cbn in H. congruence.
Qed.
Lemma joint_task_facts fm j : joint_task fm j -> jt_facts fm j.
Proof.
  intros (name & cost & gain & gf & lm & c & os & Hn & Ho & Hb & Hj).
  pose proof (jt_history _ _ _ _ _ _ _ _ Hn Ho Hb) as I. unfold compiles in Hj.
  rewrite jax_value in Hj by (apply reachable_Inv; exists c, os; split; [now apply (made_joint_task name cost gain gf lm fm)|reflexivity]).
  apply jax_pure_published in Hj. pose proof Hj as (P1 & P2 & P3 & P4 & P5 & P6 & P7). destruct I as [(_ & D & _)|(m & Hw & Hf & Hm & Hd & Hmk & Hmi & co & l & t & He & Ht)].
  { rewrite D in P1. contradiction. }
  rewrite Hm in P3. injection P3 as P3. unfold jt_facts. rewrite <- P3. split; [exact Hw|]. split; [exact Hf|]. split; [congruence|].
  split; [rewrite (published_masked _ _ _ Hj Hmk); exact Hmi|]. split; [eapply vector_gain_length; eauto|].
  inversion P7; try congruence. rewrite He in H0. injection H0 as <- <- <- <- <-. do 3 eexists. split; [reflexivity|exact Ht].
Qed.
Lemma joint_barrier_facts fm j : joint_barrier fm j -> jb_facts fm j.
Proof.
  intros (name & gain & gf & sdg & lo0 & hi0 & c & os & Hn & Ho & Hb & Hj).
  pose proof (jb_history _ _ _ _ _ _ _ _ _ Hn Ho Hb) as I. unfold compiles in Hj.
  rewrite jax_value in Hj by (apply reachable_Inv; exists c, os; split; [now apply (made_joint_barrier name gain gf sdg lo0 hi0 fm)|reflexivity]).
  apply jax_pure_published in Hj. pose proof Hj as (P1 & P2 & P3 & P4 & P5 & P6 & P7). destruct I as [(_ & D & _)|(m & Hw & Hf & Hm & Hd & Hmk & Hmi & lo & hi & He)].
  { rewrite D in P1. contradiction. }
  rewrite Hm in P3. injection P3 as P3. unfold jb_facts. rewrite <- P3. split; [exact Hw|]. split; [exact Hf|]. split; [congruence|].
  split; [rewrite (published_masked _ _ _ Hj Hmk); exact Hmi|]. split; [eapply vector_gain_length; [eassumption|rewrite Hd; lia]|].
  inversion P7; try congruence. rewrite He in H0. injection H0 as <- <- <- <- <-. do 3 eexists; reflexivity.
Qed.

Lemma vidx_seq m fm : vidx_of m fm = map Z.of_nat (map (dof_of m) (selected m fm)).
Proof. unfold vidx_of. now rewrite map_map. Qed.
Lemma qidx_seq m fm : qidx_of m fm = map Z.of_nat (map (qpos_of m) (selected m fm)).
Proof. unfold qidx_of. now rewrite map_map. Qed.
Lemma dofs_in m fm : wf_joints m -> Forall (fun i => (i < m_nv m)%nat) (map (dof_of m) (selected m fm)).
Proof. intros Hw. apply Forall_forall. intros i Hi. apply in_map_iff in Hi as (k & <- & Hk). now apply (selected_bounds m fm k Hw). Qed.
Lemma qposs_in m fm : wf_joints m -> Forall (fun i => (i < m_nq m)%nat) (map (qpos_of m) (selected m fm)).
Proof. intros Hw. apply Forall_forall. intros i Hi. apply in_map_iff in Hi as (k & <- & Hk). now apply (selected_bounds m fm k Hw). Qed.
Lemma gather_sel m fm q : wf_joints m -> List.length q = m_nq m -> jx_gather q (qidx_of m fm) = Ok (sel_pos m fm q).
Proof. intros Hw Hq. rewrite qidx_seq, (gather_in q _ 0) by (rewrite Hq; now apply qposs_in). unfold sel_pos. now rewrite map_map. Qed.
Lemma sel_pos_integrate m fm q v dt q' : wf_joints m -> List.length q = m_nq m -> List.length v = m_nv m -> integrate m q v dt = Ok q' ->
  List.length q' = m_nq m /\ sel_pos m fm q' = vadd (sel_pos m fm q) (vscale dt (sel_vel m fm v)).
Proof.
  intros Hw Hq Hv Hi. destruct (integrate_spec m Hw q v dt Hq Hv) as (q'' & Hi' & Lq & S & _). rewrite Hi in Hi'. injection Hi' as <-.
  split; [exact Lq|]. unfold sel_pos, sel_vel, vadd, vscale, vmap2.
  assert (G : forall js, (forall k, In k js -> In k (selected m fm)) ->
    map (fun j => nth (qpos_of m j) q' 0) js = map (fun p => fst p + snd p) (combine (map (fun j => nth (qpos_of m j) q 0) js) (map (Rmult dt) (map (fun j => nth (dof_of m j) v 0) js)))).
  { induction js as [|k js IH]; intros Hin; [reflexivity|]. cbn. rewrite IH by (intros; apply Hin; now right). f_equal.
    destruct (selected_scalar m fm k (Hin k (or_introl eq_refl))) as (t & T1 & T2). exact (S k t T1 T2). }
  apply G. auto.
Qed.
Lemma sel_pos_length m fm q : List.length (sel_pos m fm q) = List.length (selected m fm).
Proof. apply map_length. Qed.
Lemma sel_vel_length m fm q : List.length (sel_vel m fm q) = List.length (selected m fm).
Proof. apply map_length. Qed.

Lemma bc2_eq f a b : List.length a = List.length b -> bc2 f a b = Ok (vmap2 f a b).
Proof. intros H. unfold bc2. apply Nat.eqb_eq in H. now rewrite H. Qed.
Lemma last_dim_vec t : last_dim (tvec t) = Ok (List.length t).
Proof. reflexivity. Qed.

Lemma joint_jac fm j : jt_facts fm j -> forall L d, let m := j_model j in
  exists J, jacobian L j d = Ok J /\ is_mat (List.length (selected m fm)) (m_nv m) J /\ forall v, List.length v = m_nv m -> mv J v = sel_vel m fm v.
Proof.
  intros (Hw & Hf & Hd & Hmi & Hg & W & lm & t & He & Ht) L d. cbv zeta. unfold jacobian. rewrite He. unfold jac_joint. rewrite Hd, Hmi, vidx_seq.
  pose proof (dofs_in (j_model j) fm Hw) as Hi. pose proof (sel_matrix_in _ _ Hi) as E. rewrite map_length in E. rewrite E.
  eexists. split; [reflexivity|]. split; [pose proof (unit_rows_mat (m_nv (j_model j)) (map (dof_of (j_model j)) (selected (j_model j) fm))) as M; now rewrite map_length in M|].
  intros v Hv. rewrite mv_units by assumption. unfold sel_vel. now rewrite map_map.
Qed.
Lemma joint_value fm j t : jt_facts fm j -> has_target j t -> forall L d, let m := j_model j in List.length (d_qpos d) = m_nq m ->
  List.length t = List.length (selected m fm) /\ call L j d = Ok (vsub (sel_pos m fm (d_qpos d)) t).
Proof.
  intros (Hw & Hf & Hd & Hmi & Hg & W & lm & t' & He & Ht) (W' & lm' & qi & He') L d. cbv zeta. intros Hq.
  rewrite He in He'. injection He' as -> -> -> <-. rewrite last_dim_vec in Ht. injection Ht as Ht. split; [exact Ht|].
  unfold call. rewrite He. unfold call_joint. rewrite gather_sel by assumption. cbn [bind vec_of ndim t_shape tvec List.length t_data].
  apply bc2_eq. rewrite sel_pos_length. now symmetry.
Qed.
Lemma vsub_shift (a b t : vec) : List.length a = List.length b -> List.length a = List.length t -> vsub (vadd a b) t = vadd (vsub a t) b.
Proof.
  unfold vsub, vadd, vmap2. revert b t. induction a as [|x a IH]; intros [|y b] [|z t] H1 H2; try discriminate; [reflexivity|].
  cbn. rewrite IH by (now injection H1; injection H2). f_equal. ring.
Qed.
Lemma vsub_shift_r (a b t : vec) : List.length a = List.length b -> List.length a = List.length t -> vsub t (vadd a b) = vadd (vsub t a) (vneg b).
Proof.
  unfold vsub, vadd, vneg, vmap2. revert b t. induction a as [|x a IH]; intros [|y b] [|z t] H1 H2; try discriminate; [reflexivity|].
  cbn. rewrite IH by (now injection H1; injection H2). f_equal. ring.
Qed.
Lemma sel_pos_agrees m fm q q2 : agrees m q q2 -> sel_pos m fm q2 = sel_pos m fm q.
Proof.
  intros [_ H]. unfold sel_pos. apply map_ext_in. intros j Hj. destruct (selected_scalar m fm j Hj) as (t & T1 & T2). exact (H j t T1 T2).
Qed.
Lemma joint_task_motion fm j t : joint_task fm j -> has_target j t -> forall L q d, let m := j_model j in
  List.length q = m_nq m -> agrees m q (d_qpos d) ->
  exists J, let e := vsub (sel_pos m fm q) t in call L j d = Ok e /\ jacobian L j d = Ok J /\
    List.length t = List.length (selected m fm) /\ is_mat (List.length e) (m_nv m) J /\ List.length (j_gain j) = List.length e /\
    forall v dt, List.length v = m_nv m -> mv J v = sel_vel m fm v /\
      exists q', integrate m q v dt = Ok q' /\ List.length q' = m_nq m /\
        vsub (sel_pos m fm q') t = vadd e (vscale dt (mv J v)) /\
        forall d', agrees m q' (d_qpos d') -> call L j d' = Ok (vadd e (vscale dt (mv J v))).
Proof.
  intros Hj Ht L q d m Hq Ha. apply joint_task_facts in Hj. destruct (joint_value fm j t Hj Ht L d (proj1 Ha)) as [Lt Hc]. destruct (joint_jac fm j Hj L d) as (J & HJ & MJ & Hmv).
  fold m in Lt, Hc, HJ, MJ, Hmv. rewrite (sel_pos_agrees _ fm _ _ Ha) in Hc. exists J. cbv zeta. split; [exact Hc|]. split; [exact HJ|]. split; [exact Lt|].
  assert (Le : List.length (vsub (sel_pos m fm q) t) = List.length (selected m fm)) by (rewrite vsub_length; rewrite ?sel_pos_length; auto).
  split; [now rewrite Le|]. pose proof Hj as (Hw & _ & _ & _ & Hg & _). fold m in Hw, Hg. split; [congruence|]. intros v dt Hv. split; [now apply Hmv|].
  destruct (integrate_spec m Hw q v dt Hq Hv) as (q' & Hi & _). exists q'. split; [exact Hi|].
  destruct (sel_pos_integrate m fm _ v dt q' Hw Hq Hv Hi) as [Lq Es]. split; [exact Lq|].
  assert (Ee : vsub (sel_pos m fm q') t = vadd (vsub (sel_pos m fm q) t) (vscale dt (mv J v))).
  { rewrite Es, Hmv by exact Hv. apply vsub_shift; rewrite ?vscale_length, ?sel_pos_length, ?sel_vel_length; auto. }
  split; [exact Ee|]. intros d' Hd'. destruct (joint_value fm j t Hj Ht L d' (proj1 Hd')) as [_ Hc']. fold m in Hc'. rewrite Hc', (sel_pos_agrees _ fm _ _ Hd'). now f_equal.
Qed.

(** ** Joint barrier *)
Lemma jbar_jac fm j : jb_facts fm j -> forall L d, let m := j_model j in
  exists C, jacobian L j d = Ok (C ++ mneg C) /\ is_mat (List.length (selected m fm)) (m_nv m) C /\ forall v, List.length v = m_nv m -> mv C v = sel_vel m fm v.
Proof.
  intros (Hw & Hf & Hd & Hmi & Hg & s & lo & hi & He) L d. cbv zeta. unfold jacobian. rewrite He. unfold jac_jbar. rewrite Hd, Hmi, vidx_seq.
  rewrite (Z.mul_comm 2), Z.div_mul by lia.
  pose proof (dofs_in (j_model j) fm Hw) as Hi. pose proof (sel_matrix_in _ _ Hi) as E. rewrite map_length in E. rewrite E.
  eexists. split; [reflexivity|]. split; [pose proof (unit_rows_mat (m_nv (j_model j)) (map (dof_of (j_model j)) (selected (j_model j) fm))) as M; now rewrite map_length in M|].
  intros v Hv. rewrite mv_units by assumption. unfold sel_vel. now rewrite map_map.
Qed.
Lemma jbar_value fm j lo hi : jb_facts fm j -> has_limits j lo hi -> forall L d, let m := j_model j in List.length (d_qpos d) = m_nq m ->
  List.length lo = List.length (selected m fm) -> List.length hi = List.length (selected m fm) ->
  call L j d = Ok (vsub (sel_pos m fm (d_qpos d)) lo ++ vsub hi (sel_pos m fm (d_qpos d))).
Proof.
  intros (Hw & Hf & Hd & Hmi & Hg & s & lo' & hi' & He) (s' & qi & He') L d. cbv zeta. intros Hq L1 L2.
  rewrite He in He'. injection He' as -> -> -> <-. unfold call. rewrite He. unfold call_jbar. rewrite gather_sel by assumption.
  cbn [bind vec_of ndim t_shape tvec List.length t_data]. rewrite !bc2_eq by (rewrite sel_pos_length; auto). reflexivity.
Qed.
Lemma vnonneg_sub a b : List.length a = List.length b -> (vnonneg (vsub a b) <-> vle b a).
Proof.
  unfold vnonneg, vle, vsub, vmap2. revert b. induction a as [|x a IH]; intros [|y b] H; try discriminate; [split; constructor|].
  cbn. injection H as H. split; intros G; inversion G; subst; constructor; try lra; apply IH; auto.
Qed.
Lemma vneg_app a b : vneg (a ++ b) = vneg a ++ vneg b. Proof. apply map_app. Qed.
Lemma vscale_app k a b : vscale k (a ++ b) = vscale k a ++ vscale k b. Proof. apply map_app. Qed.
Lemma vadd_app a b c d : List.length a = List.length b -> vadd (a ++ c) (b ++ d) = vadd a b ++ vadd c d.
Proof. unfold vadd, vmap2. revert b. induction a as [|x a IH]; intros [|y b] H; try discriminate; [reflexivity|]. cbn. rewrite IH by now injection H. reflexivity. Qed.
Lemma vscale_vneg k a : vscale k (vneg a) = vneg (vscale k a).
Proof. unfold vscale, vneg. rewrite !map_map. apply map_ext. intros. ring. Qed.
Lemma jb_motion fm j lo hi : jb_facts fm j -> has_limits j lo hi -> forall L q d, let m := j_model j in
  List.length q = m_nq m -> agrees m q (d_qpos d) ->
  List.length lo = List.length (selected m fm) -> List.length hi = List.length (selected m fm) ->
  exists J, let h := slack lo hi (sel_pos m fm q) in call L j d = Ok h /\ jacobian L j d = Ok J /\
    (vnonneg h <-> within lo hi (sel_pos m fm q)) /\ is_mat (List.length h) (m_nv m) J /\ List.length (j_gain j) = List.length h /\
    forall v dt, List.length v = m_nv m ->
      exists q', integrate m q v dt = Ok q' /\ List.length q' = m_nq m /\
        slack lo hi (sel_pos m fm q') = vadd h (vscale dt (mv J v)) /\
        forall d', agrees m q' (d_qpos d') -> call L j d' = Ok (vadd h (vscale dt (mv J v))).
Proof.
  intros Hj Ht L q d m Hq Ha L1 L2. pose proof (jbar_value fm j lo hi Hj Ht L d (proj1 Ha) L1 L2) as Hc.
  destruct (jbar_jac fm j Hj L d) as (C & HJ & MC & Hmv). fold m in Hc, HJ, MC, Hmv. rewrite (sel_pos_agrees _ fm _ _ Ha) in Hc.
  pose proof Hj as (Hw & _ & _ & _ & Hg & _). fold m in Hw, Hg.
  set (x := sel_pos m fm q) in *. assert (Lx : List.length x = List.length (selected m fm)) by apply sel_pos_length.
  exists (C ++ mneg C). cbv zeta. unfold slack. split; [exact Hc|]. split; [exact HJ|].
  split.
  { unfold vnonneg. rewrite Forall_app. fold (vnonneg (vsub x lo)). fold (vnonneg (vsub hi x)). rewrite !vnonneg_sub by congruence. reflexivity. }
  assert (Lh : List.length (vsub x lo ++ vsub hi x) = (2 * List.length (selected m fm))%nat) by (rewrite app_length, !vsub_length by congruence; lia).
  split.
  { destruct MC as [MC1 MC2]. split.
    - rewrite Lh, app_length. unfold mneg. rewrite map_length. unfold vec in *. lia.
    - apply Forall_app. split; [exact MC2|]. apply Forall_forall. intros r Hr. apply in_map_iff in Hr as (r' & <- & Hr'). rewrite vneg_length. rewrite Forall_forall in MC2. auto. }
  split; [congruence|].
  intros v dt Hv. destruct (integrate_spec m Hw q v dt Hq Hv) as (q' & Hi & _). exists q'. split; [exact Hi|].
  destruct (sel_pos_integrate m fm _ v dt q' Hw Hq Hv Hi) as [Lq Es]. fold x in Es. split; [exact Lq|].
  assert (Ee : vsub (sel_pos m fm q') lo ++ vsub hi (sel_pos m fm q') = vadd (vsub x lo ++ vsub hi x) (vscale dt (mv (C ++ mneg C) v))).
  { rewrite mv_app, mv_mneg, Hmv by exact Hv. rewrite vscale_app, vscale_vneg.
    assert (Ls : List.length (vscale dt (sel_vel m fm v)) = List.length x) by (rewrite vscale_length, sel_vel_length; auto).
    rewrite vadd_app by (rewrite vsub_length; congruence). rewrite Es. f_equal; [apply vsub_shift; congruence|apply vsub_shift_r; congruence]. }
  split; [exact Ee|]. intros d' Hd'. pose proof (jbar_value fm j lo hi Hj Ht L d' (proj1 Hd') L1 L2) as Hc'. fold m in Hc'.
  rewrite Hc', (sel_pos_agrees _ fm _ _ Hd'). now f_equal.
Qed.
Lemma joint_barrier_motion fm j lo hi : joint_barrier fm j -> has_limits j lo hi -> forall L q d, let m := j_model j in
  List.length q = m_nq m -> agrees m q (d_qpos d) ->
  List.length lo = List.length (selected m fm) -> List.length hi = List.length (selected m fm) ->
  exists J, let h := slack lo hi (sel_pos m fm q) in call L j d = Ok h /\ jacobian L j d = Ok J /\
    (vnonneg h <-> within lo hi (sel_pos m fm q)) /\ is_mat (List.length h) (m_nv m) J /\ List.length (j_gain j) = List.length h /\
    forall v dt, List.length v = m_nv m ->
      exists q', integrate m q v dt = Ok q' /\ List.length q' = m_nq m /\
        slack lo hi (sel_pos m fm q') = vadd h (vscale dt (mv J v)) /\
        forall d', agrees m q' (d_qpos d') -> call L j d' = Ok (vadd h (vscale dt (mv J v))).
Proof. intros Hj. exact (jb_motion fm j lo hi (joint_barrier_facts fm j Hj)). Qed.
