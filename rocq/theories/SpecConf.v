(** Vocabulary for the configuration-space functions. *)
From Verif Require Import Base Lin Mjx SpecJoint Rot Conf SpecMotion.
Open Scope R_scope.

(** The quaternion and the position stored at an address of a configuration. *)
Definition quat_in (q : list R) (a : nat) : quat := mkQ (nth a q 0) (nth (a + 1) q 0) (nth (a + 2) q 0) (nth (a + 3) q 0).
Definition vec_in (q : list R) (a : nat) : v3 := mkV (nth a q 0) (nth (a + 1) q 0) (nth (a + 2) q 0).
(** Addresses of the position of a free joint and of its velocity parts. *)
Definition free_joint (m : mjmodel) (j : nat) : Prop := joint_type m j JFree.
Definition scalar_joint (m : mjmodel) (j : nat) : Prop := exists t, joint_type m j t /\ is_scalar t = true.
(** Quaternion of joint [j] at [a] in qpos with its angular velocity at [b] in qvel. *)
Definition quat_joint (m : mjmodel) (j a b : nat) : Prop :=
  (joint_type m j JFree /\ a = (qpos_of m j + 3)%nat /\ b = (dof_of m j + 3)%nat) \/
  (joint_type m j JBall /\ a = qpos_of m j /\ b = dof_of m j).

(** The same rotation: equal or opposite quaternions. *)
Definition same_rotation (a b : quat) : Prop := a = b \/ a = q_neg b.
(** The same pose, joint by joint. *)
Definition same_pose (m : mjmodel) (q1 q2 : list R) : Prop :=
  (forall j, scalar_joint m j -> nth (qpos_of m j) q1 0 = nth (qpos_of m j) q2 0) /\
  (forall j, free_joint m j -> vec_in q1 (qpos_of m j) = vec_in q2 (qpos_of m j)) /\
  (forall j a, quat_address m j a -> same_rotation (quat_in q1 a) (quat_in q2 a)).

(** [f] has derivative [l] at 0. *)
Definition derivative_at_0 (f : R -> R) (l : R) : Prop := derivable_pt_lim f 0 l.
(** Entry [i] of the configuration after integrating for time [t]. *)
Definition entry_after (m : mjmodel) (q v : list R) (i : nat) (t : R) : R :=
  match integrate m q v t with Ok q' => nth i q' 0 | Err _ => 0 end.
(** A relative rotation that is neither (nearly) the identity nor (nearly) a half
    turn: there jaxlie's logarithm does not use its Taylor expansions. *)
Definition ordinary (eps : R) (r : quat) : Prop := eps <= v3_norm2 (q_im r) /\ eps <= Rabs (qw r).
(** World pose of a body, read from the simulation data. *)
Definition pose_of_body (d : mjdata) (i : nat) (T : se3) : Prop :=
  nth i (d_xquat d) [] = q_list (s_rot T) /\ nth i (d_xpos d) [] = v3_list (s_pos T).

(** The mass below which MuJoCo treats a subtree as massless. *)
Definition negligible_mass : R := 1 / 10 ^ 15.
