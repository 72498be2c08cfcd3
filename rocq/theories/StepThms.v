(** Which components and motions qualify for StepFacts. *)
From Verif Require Import Base Lin LinFacts Mjx Typing Component Problem SpecComponent ComponentFacts ComponentFacts2 SpecJoint SpecHistory JointFacts BindFacts BindFacts3 SpecProblem SpecShape SpecFit SpecValue Rot Conf FrameJac Collide JaxComponents LocalIK SpecQP QPFacts QPThms QPThms2 QPThms3 QPThms4 SpecMotion MotionFacts MotionFacts2 SpecLoop LoopFacts FitThms FitFacts FitFacts3 SpecSolve SolveFacts SolveThms SpecDescent SpecDeriv DerivFacts DerivThms DerivThms2 ConfFacts3 ConfFacts4 DescentFacts2 DescentThms2 SpecClosed SpecTol TolFacts TolThms SpecStep StepFacts.
Open Scope R_scope.

(** Straight motions of robots whose joints are all hinges and slides. *)
Lemma straight_integrate m q v t : wf_joints m -> m_nq m = m_nv m -> List.length q = m_nq m -> List.length v = m_nv m -> integrate m q v t = Ok (vadd q (vscale t v)).
Proof.
  intros Hw He Lq Lv. destruct (integrate_spec m Hw q v t Lq Lv) as (x & Hi & Lx & S & _). rewrite Hi. f_equal. apply (nth_ext _ _ 0 0).
  - unfold vadd, vscale, vmap2. rewrite map_length, combine_length, map_length. lia.
  - intros i Hn. rewrite Lx in Hn. destruct (scalar_entries m i Hw He Hn) as (y & (ty & T1 & T2) & <- & E). pose proof (S y ty T1 T2) as K. rewrite E in K. rewrite K. rewrite nth_vadd_scale by congruence. reflexivity.
Qed.
Lemma straight_follows m a b q v : wf_joints m -> m_nq m = m_nv m -> List.length q = m_nq m -> List.length v = m_nv m -> follows m a b (fun _ => v) (fun t => vadd q (vscale t v)).
Proof.
  intros Hw He Lq Lv. split; [intros t; unfold vadd, vscale, vmap2; rewrite map_length, combine_length, map_length; lia|]. intros t _. split; [exact Lv|]. intros x (ty & T1 & T2).
  assert (Hi : (qpos_of m x < m_nq m)%nat) by (pose proof (qpos_end m Hw x ty T1) as K; destruct ty; try discriminate; cbn in K; lia). destruct (scalar_entries m (qpos_of m x) Hw He Hi) as (y & Hy & E1 & E2).
  assert (Ed : dof_of m x = qpos_of m x).
  { assert (S : Forall (fun t => is_scalar t = true) (m_jnt_type m)) by (pose proof Hw as (_ & _ & _ & Hnq & Hnv & _); apply all_scalar; congruence). rewrite (qpos_pos m Hw x ty T1), (dof_pos m Hw x ty T1). unfold pos.
    assert (T : forall l, Forall (fun t => is_scalar t = true) l -> total jnt_nq l = total jnt_nv l) by (induction 1 as [|z l X _ IH]; [reflexivity|]; unfold total in *; cbn; destruct z; try discriminate; cbn; lia).
    symmetry. apply T. apply Forall_forall. intros z Hz. rewrite Forall_forall in S. apply S. rewrite <- (firstn_skipn x (m_jnt_type m)). apply in_or_app. now left. }
  rewrite Ed. apply (derivable_pt_lim_ext (fun s => nth (qpos_of m x) q 0 + s * nth (qpos_of m x) v 0)); [intros s; symmetry; apply nth_vadd_scale; congruence|].
  assert (D : forall c d, derivable_pt_lim (fun s => c + s * d) t d).
  { intros c d. assert (E : d = 0 + (1 * d + id t * 0)) by (unfold id; ring). refine (eq_ind_r (fun e => derivable_pt_lim (fun s => c + s * d) t e) _ E). apply (derivable_pt_lim_plus (fun _ => c) (fun s => s * d)); [apply derivable_pt_lim_const|]. apply (derivable_pt_lim_mult id (fun _ => d)); [apply derivable_pt_lim_id|apply derivable_pt_lim_const]. }
  apply D.
Qed.
(** Rates whose derivatives are bounded. *)
Lemma accelerations_bound M L a b dt v ds j n (J : R -> mat) (acc : nat -> R -> R) : a < 0 -> dt < b -> flows L a b (fun _ => v) ds j ->
  (forall t, 0 <= t <= dt -> jacobian L j (ds t) = Ok (J t) /\ List.length (J t) = n /\ forall i, (i < n)%nat -> derivable_pt_lim (fun s => nth i (mv (J s) v) 0) t (acc i t) /\ Rabs (acc i t) <= M) ->
  steady M L dt v ds j.
Proof.
  intros Ha Hb Hf H. exists a, b. split; [exact Ha|]. split; [exact Hb|]. split; [exact Hf|]. intros t J0 Jt Ht E0 Et.
  destruct (H t Ht) as (E & Ln & _). rewrite E in Et. injection Et as <-. destruct (H 0 ltac:(lra)) as (E' & Ln0 & _). rewrite E' in E0. injection E0 as <-.
  assert (G : forall (x y : vec), List.length x = List.length y -> (forall i, (i < List.length x)%nat -> Rabs (nth i x 0 - nth i y 0) <= M * t) -> close_by (M * t) x y).
  { induction x as [|x xs IH]; intros [|y ys] Hl Hn; try discriminate; constructor; [exact (Hn 0%nat ltac:(cbn; lia))|]. apply IH; [now injection Hl|]. intros i Hi. exact (Hn (S i) ltac:(cbn; lia)). }
  apply G; [unfold mv; rewrite !map_length; unfold vec, mat in *; now rewrite Ln, Ln0|]. intros i Hi0. assert (Hi : (i < n)%nat) by (unfold mv in Hi0; rewrite map_length in Hi0; unfold vec, mat in *; rewrite Ln in Hi0; exact Hi0).
  destruct (Rle_lt_or_eq_dec 0 t (proj1 Ht)) as [P| <-]; [|rewrite Rminus_diag_eq by reflexivity; rewrite Rabs_R0; lra].
  destruct (MVT_cor2 (fun s => nth i (mv (J s) v) 0) (acc i) 0 t P) as (c & Ec & Hc); [intros c Hc; apply (H c); [lra|exact Hi]|]. rewrite Ec, Rabs_mult, (Rabs_pos_eq (t - 0)) by lra.
  destruct (H c ltac:(lra)) as (_ & _ & Q). destruct (Q i Hi) as [_ B]. replace (M * t) with (M * (t - 0)) by ring. apply Rmult_le_compat_r; [lra|exact B].
Qed.
(** Joint barriers: no acceleration at all. *)
Lemma straight_limits L m fm j lo hi dt q v : joint_barrier fm j -> has_limits j lo hi -> j_model j = m -> List.length lo = List.length (selected m fm) -> List.length hi = List.length (selected m fm) -> keeps_scalars L m -> wf_joints m -> m_nq m = m_nv m ->
  List.length q = m_nq m -> List.length v = m_nv m -> steady 0 L dt v (fun t => update L m (vadd q (vscale t v))) j.
Proof.
  intros Hj Hl <- L1 L2 Hk Hw He Lq Lv. exists (-1), (dt + 1). split; [lra|]. split; [lra|].
  split; [apply (joint_barrier_flows L (-1) (dt + 1) (fun _ => v) (fun t => vadd q (vscale t v)) fm j lo hi); auto; now apply straight_follows|].
  intros t J0 Jt _ E0 Et. destruct (jbar_jac fm j (joint_barrier_facts fm j Hj) L (update L (j_model j) (vadd q (vscale t v)))) as (C & HJ & _ & Hmv). destruct (jbar_jac fm j (joint_barrier_facts fm j Hj) L (update L (j_model j) (vadd q (vscale 0 v)))) as (C' & HJ' & _ & Hmv').
  rewrite Et in HJ. injection HJ as ->. rewrite E0 in HJ'. injection HJ' as ->. rewrite !mv_app, !mv_mneg, Hmv, Hmv' by exact Lv.
  assert (G : forall x : vec, close_by (0 * t) x x) by (induction x; constructor; [rewrite Rminus_diag_eq by reflexivity; rewrite Rabs_R0; lra|assumption]). apply G.
Qed.
(** Components with automatic Jacobians. *)
Lemma straight_automatic L j k a b q v : let m := j_model j in sound_jac (l_jacrev L) -> automatic j -> kinematic L j -> wf_joints m -> m_nq m = m_nv m -> keeps_scalars L m -> List.length q = m_nq m -> List.length v = m_nv m ->
  (forall x, List.length x = m_nq m -> smooth L j k x) -> flows L a b (fun _ => v) (fun t => update L m (vadd q (vscale t v))) j.
Proof.
  intros m H1 H2 H3 H4 H5 H6 Lq Lv Hs. apply (automatic_flows L a b (fun _ => v) (fun t => vadd q (vscale t v)) j k); auto; [now apply straight_follows|].
  intros t _. apply Hs. unfold vadd, vscale, vmap2. rewrite map_length, combine_length, map_length. fold m. lia.
Qed.
