(** C18-C21, C65: joint components along motions, closed loops, integration. *)
From Verif Require Import Base Lin Mjx Typing Component Problem SpecComponent SpecJoint SpecHistory SpecProblem Witness Conf JaxComponents LocalIK SpecQP QPCases SpecMotion MotionFacts MotionFacts2 SpecLoop LoopFacts MotionCases.
Open Scope R_scope.

(** ** C18 *)
Theorem C18_joint_task_value_and_jacobian fm j t : joint_task fm j -> has_target j t ->
  forall L q d, let m := j_model j in List.length q = m_nq m -> agrees m q (d_qpos d) ->
  exists J, let e := vsub (sel_pos m fm q) t in call L j d = Ok e /\ jacobian L j d = Ok J /\
    List.length t = List.length (selected m fm) /\ is_mat (List.length e) (m_nv m) J /\ List.length (j_gain j) = List.length e /\
    forall v dt, List.length v = m_nv m -> mv J v = sel_vel m fm v /\
      exists q', integrate m q v dt = Ok q' /\ List.length q' = m_nq m /\
        vsub (sel_pos m fm q') t = vadd e (vscale dt (mv J v)) /\
        forall d', agrees m q' (d_qpos d') -> call L j d' = Ok (vadd e (vscale dt (mv J v))).
Proof. exact (joint_task_motion fm j t). Qed.
Print Assumptions C18_joint_task_value_and_jacobian.
Example C18_case : joint_task slide_mask slide_j /\ has_target slide_j [2] /\ j_model slide_j = floating /\ selected floating slide_mask = [3%nat] /\
  m_nq floating = 13%nat /\ m_nv floating = 11%nat /\ j_gain slide_j = [1 / 2] /\ (forall x, j_gain_fn slide_j x = x).
Proof. exact slide_is. Qed.

(** ** C19 *)
Theorem C19_joint_barrier_value_and_jacobian fm j lo hi : joint_barrier fm j -> has_limits j lo hi ->
  forall L q d, let m := j_model j in List.length q = m_nq m -> agrees m q (d_qpos d) ->
  List.length lo = List.length (selected m fm) -> List.length hi = List.length (selected m fm) ->
  exists J, let h := slack lo hi (sel_pos m fm q) in call L j d = Ok h /\ jacobian L j d = Ok J /\
    (vnonneg h <-> within lo hi (sel_pos m fm q)) /\ is_mat (List.length h) (m_nv m) J /\ List.length (j_gain j) = List.length h /\
    forall v dt, List.length v = m_nv m ->
      exists q', integrate m q v dt = Ok q' /\ List.length q' = m_nq m /\
        slack lo hi (sel_pos m fm q') = vadd h (vscale dt (mv J v)) /\
        forall d', agrees m q' (d_qpos d') -> call L j d' = Ok (vadd h (vscale dt (mv J v))).
Proof. exact (joint_barrier_motion fm j lo hi). Qed.
Print Assumptions C19_joint_barrier_value_and_jacobian.
Example C19_case : joint_barrier None bar_j /\ has_limits bar_j [- INR 2; - INR 4] [INR 2; INR 4] /\ j_model bar_j = floating /\ selected floating None = [1%nat; 3%nat].
Proof. exact bar_is. Qed.

(** ** C20 *)
Theorem C20_joint_limits_are_invariant L fm j lo hi pd dt (q v : nat -> vec) : let m := jd_model pd in
  joint_barrier fm j -> In j (comps_of pd) -> j_model j = m -> has_limits j lo hi ->
  List.length lo = List.length (selected m fm) -> List.length hi = List.length (selected m fm) ->
  List.length (jd_vmin pd) = m_nv m -> List.length (jd_vmax pd) = m_nv m ->
  keeps_scalars L m -> (forall k, Forall (well_shaped L (m_nv m) (update L m (q k))) (comps_of pd)) ->
  (forall x, j_gain_fn j x = x) -> 0 <= dt -> Forall (fun a => 0 <= a * dt <= 1) (j_gain j) ->
  safe_loop L m pd dt q v ->
  (forall k, vle (vmul (decay (j_gain j) dt k) (slack lo hi (sel_pos m fm (q 0%nat)))) (slack lo hi (sel_pos m fm (q k)))) /\
  (within lo hi (sel_pos m fm (q 0%nat)) -> forall k, within lo hi (sel_pos m fm (q k))).
Proof. exact (limits_invariant L fm j lo hi pd dt q v). Qed.
Print Assumptions C20_joint_limits_are_invariant.
Example C20_case : compiled_by lim1_prog 0 lim1_pd /\ Forall legal lim1_prog /\ In lim1_j (comps_of lim1_pd) /\ joint_barrier None lim1_j /\
  has_limits lim1_j [-1] [1] /\ (forall x, j_gain_fn lim1_j x = x) /\ j_gain lim1_j = [1; 1] /\ keeps_scalars plain_lib one /\
  (forall k, Forall (well_shaped plain_lib 1 (update plain_lib one (lim1_q k))) (comps_of lim1_pd)) /\
  safe_loop plain_lib one lim1_pd (1 / 2) lim1_q lim1_v /\ within [-1] [1] (sel_pos one None (lim1_q 0)).
Proof. exact lim1_case. Qed.

(** ** C21 *)
Theorem C21_joint_task_error_decays L fm j t m dt (q v : nat -> vec) :
  joint_task fm j -> j_model j = m -> has_target j t -> keeps_scalars L m -> (forall x, j_gain_fn j x = x) ->
  task_loop L m j dt q v ->
  forall k, vsub (sel_pos m fm (q k)) t = vmul (decay (j_gain j) dt k) (vsub (sel_pos m fm (q 0%nat)) t).
Proof. exact (task_converges L fm j t m dt q v). Qed.
Print Assumptions C21_joint_task_error_decays.
Theorem C21_joint_task_converges L fm j t m dt (q v : nat -> vec) :
  joint_task fm j -> j_model j = m -> has_target j t -> keeps_scalars L m -> (forall x, j_gain_fn j x = x) ->
  task_loop L m j dt q v -> Forall (fun a => 0 < a * dt < 2) (j_gain j) ->
  forall i, (i < List.length (selected m fm))%nat -> Un_cv (fun k => nth i (sel_pos m fm (q k)) 0) (nth i t 0).
Proof. exact (task_tends L fm j t m dt q v). Qed.
Print Assumptions C21_joint_task_converges.
(** From every configuration there is such a loop ... *)
Theorem C21_loops_exist L fm j t dt q0 : joint_task fm j -> has_target j t -> let m := j_model j in
  List.length q0 = m_nq m -> keeps_scalars L m -> exists q v, q 0%nat = q0 /\ task_loop L m j dt q v.
Proof. exact (loop_exists L fm j t dt q0). Qed.
Print Assumptions C21_loops_exist.
(** ... and the unconstrained optimum of an undamped task with an injective
    weight matrix is a velocity of this kind. *)
Theorem C21_optimum_drives_task L fm j t W k q v : joint_task fm j -> has_target j t -> let m := j_model j in
  j_ext j = JTask W 0 k ->
  (forall x, List.length x = List.length (selected m fm) -> mv W x = vzero (List.length (mv W x)) -> x = vzero (List.length (selected m fm))) ->
  List.length q = m_nq m -> keeps_scalars L m -> unconstrained_optimum L m (update L m q) j v ->
  exists J e, jacobian L j (update L m q) = Ok J /\ call L j (update L m q) = Ok e /\ mv J v = vneg (gained j e).
Proof. exact (optimum_velocity L fm j t W k q v). Qed.
Print Assumptions C21_optimum_drives_task.
Example C21_case : exists q v, q 0%nat = vzero 13 /\ task_loop plain_lib floating slide_j (1 / 3) q v /\ Forall (fun a => 0 < a * (1 / 3) < 2) (j_gain slide_j).
Proof.
  destruct slide_is as (A & B & C & _). destruct (loop_exists plain_lib slide_mask slide_j [2] (1 / 3) (vzero 13) A B eq_refl (plain_keeps _)) as (q & v & E & F).
  exists q, v. split; [exact E|]. split; [exact F|]. repeat constructor; lra.
Qed.

(** ** C65 *)
Theorem C65_integration m : wf_joints m -> forall q v dt, List.length q = m_nq m -> List.length v = m_nv m ->
  exists q', integrate m q v dt = Ok q' /\ List.length q' = m_nq m /\
  (forall j t, joint_type m j t -> is_scalar t = true -> nth (qpos_of m j) q' 0 = nth (qpos_of m j) q 0 + dt * nth (dof_of m j) v 0) /\
  (forall j i, joint_type m j JFree -> (i < 3)%nat -> nth (qpos_of m j + i) q' 0 = nth (qpos_of m j + i) q 0 + dt * nth (dof_of m j + i) v 0) /\
  (forall j a, quat_address m j a -> norm2_at q a <> 0 -> norm2_at q' a = 1) /\
  (forall j a k, quat_address m j a -> (k < 4)%nat -> norm2_at q a = 1 -> (forall i, (i < m_nv m)%nat -> nth i v 0 = 0) -> nth (a + k) q' 0 = nth (a + k) q 0).
Proof. exact (fun Hw q v dt => integrate_spec m Hw q v dt). Qed.
Print Assumptions C65_integration.
Theorem C65_zero_velocity_is_identity m q dt : wf_joints m -> List.length q = m_nq m -> normalised m q -> integrate m q (vzero (m_nv m)) dt = Ok q.
Proof. exact (integrate_zero m q dt). Qed.
Print Assumptions C65_zero_velocity_is_identity.
Example C65_case : wf_joints floating /\ quat_address floating 0 3 /\ quat_address floating 2 8 /\ joint_type floating 3 JSlide /\
  normalised floating [5; 6; 7; 1; 0; 0; 0; 2; 0; 1; 0; 0; 9].
Proof.
  split; [apply chain_joints|]. split; [left; split; reflexivity|]. split; [right; split; reflexivity|]. split; [reflexivity|].
  intros j a [[H ->]|[H ->]]; unfold joint_type in H; destruct j as [|[|[|[|j]]]]; try discriminate; try (destruct j; discriminate); unfold norm2_at; cbn; ring.
Qed.
