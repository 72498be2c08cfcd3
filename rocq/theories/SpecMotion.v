(** Vocabulary for motions: configurations joint by joint, and the joint
    components as they come out of any history of documented calls. *)
From Verif Require Import Base Lin Mjx Typing Component SpecComponent SpecJoint SpecHistory Conf JaxComponents.
Open Scope R_scope.

Definition joint_type (m : mjmodel) (j : nat) (t : jnttype) : Prop := nth_error (m_jnt_type m) j = Some t.
(** Address in qpos of the quaternion of joint [j], if it has one. *)
Definition quat_address (m : mjmodel) (j a : nat) : Prop :=
  (joint_type m j JFree /\ a = (qpos_of m j + 3)%nat) \/ (joint_type m j JBall /\ a = qpos_of m j).
(** Squared norm of the four numbers of [q] at address [a]. *)
Definition norm2_at (q : list R) (a : nat) : R :=
  nth a q 0 * nth a q 0 + nth (a + 1) q 0 * nth (a + 1) q 0 + nth (a + 2) q 0 * nth (a + 2) q 0 + nth (a + 3) q 0 * nth (a + 3) q 0.
(** All quaternions of the configuration have norm one. *)
Definition normalised (m : mjmodel) (q : list R) : Prop := forall j a, quat_address m j a -> norm2_at q a = 1.

(** [j]: the compiled form of a JointTask (JointBarrier) made with mask [fm],
    after any documented calls whose model bindings succeeded. *)
Definition joint_task (fm : option (list Z)) (j : jaxc) : Prop :=
  exists name cost gain gf lm c os, new_joint_task name cost gain gf lm fm = Ok c /\
    Forall sound_op os /\ binds_ok os c /\ compiles (history os c) j.
Definition joint_barrier (fm : option (list Z)) (j : jaxc) : Prop :=
  exists name gain gf sdg lo hi c os, new_joint_barrier name gain gf sdg lo hi fm = Ok c /\
    Forall sound_op os /\ binds_ok os c /\ compiles (history os c) j.
(** Its target is the plain vector [t]; its limits are the plain vectors [lo], [hi]. *)
Definition has_target (j : jaxc) (t : vec) : Prop := exists W lm qi, j_ext j = JTask W lm (JTJoint (tvec t) qi).
Definition has_limits (j : jaxc) (lo hi : vec) : Prop := exists s qi, j_ext j = JBarrier s (JBJoint (tvec lo) (tvec hi) qi).

(** Positions and velocities of the selected joints. *)
Definition sel_pos (m : mjmodel) (fm : option (list Z)) (q : vec) : vec := map (fun j => nth (qpos_of m j) q 0) (selected m fm).
Definition sel_vel (m : mjmodel) (fm : option (list Z)) (v : vec) : vec := map (fun j => nth (dof_of m j) v 0) (selected m fm).

(** [q2] has the length of a configuration and the hinge and slide coordinates
    of [q]; quaternions may differ (mjx.kinematics normalises them). *)
Definition agrees (m : mjmodel) (q q2 : list R) : Prop :=
  List.length q2 = m_nq m /\
  forall j t, joint_type m j t -> is_scalar t = true -> nth (qpos_of m j) q2 0 = nth (qpos_of m j) q 0.
(** What is used of the simulator: evaluating a configuration keeps its hinge
    and slide coordinates. *)
Definition keeps_scalars (L : lib) (m : mjmodel) : Prop :=
  forall q, List.length q = m_nq m -> agrees m q (d_qpos (update L m q)).

(** Within the limits, and the distances to them (lower limits first). *)
Definition within (lo hi x : vec) : Prop := vle lo x /\ vle x hi.
Definition slack (lo hi x : vec) : vec := vsub x lo ++ vsub hi x.
(** Componentwise factors (1 - a dt)^k. *)
Definition decay (gain : vec) (dt : R) (k : nat) : vec := map (fun a => (1 - a * dt) ^ k) gain.
