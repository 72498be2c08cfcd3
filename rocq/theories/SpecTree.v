(** Vocabulary for kinematic trees. *)
From Verif Require Import Base Lin Mjx Rot Conf FrameJac JaxComponents.
Open Scope R_scope.

(** The body tree: body 0 is the world, the parent of every other body comes
    earlier (guaranteed by the MuJoCo compiler). *)
Definition parent_body (m : mjmodel) (b : nat) : nat := Z.to_nat (nth b (m_body_parentid m) 0%Z).
Definition wf_tree (m : mjmodel) : Prop :=
  (0 < m_nbody m)%nat /\ List.length (m_body_parentid m) = m_nbody m /\
  forall b, (0 < b < m_nbody m)%nat -> (0 <= nth b (m_body_parentid m) 0 < Z.of_nat b)%Z.
(** [i] belongs to the subtree of [b]. *)
Inductive in_subtree (m : mjmodel) (b : nat) : nat -> Prop :=
| st_self : in_subtree m b b
| st_child i : (0 < i)%nat -> in_subtree m b (parent_body m i) -> in_subtree m b i.
(** [ds] lists the bodies of the subtree of [b], each once. *)
Definition subtree_list (m : mjmodel) (b : nat) (ds : list nat) : Prop :=
  NoDup ds /\ forall i, In i ds <-> (i < m_nbody m)%nat /\ in_subtree m b i.

(** Total mass and first moment of some bodies. *)
Definition mass_of (m : mjmodel) (ds : list nat) : R := fold_right (fun i s => nth i (m_body_mass m) 0 + s) 0 ds.
Definition moment_of (m : mjmodel) (xs : list v3) (ds : list nat) : v3 :=
  fold_right (fun i s => v3_add (v3_scale (nth i (m_body_mass m) 0) (nth i xs v3_zero)) s) v3_zero ds.

(** Data of a model: one cdof row per degree of freedom, each degree of freedom
    belonging to a body. *)
Definition dof_body (m : mjmodel) (k : nat) : nat := Z.to_nat (nth k (m_dof_bodyid m) 0%Z).
Definition wf_dofs (m : mjmodel) : Prop :=
  List.length (m_dof_bodyid m) = m_nv m /\ Forall (fun b => (0 <= b < Z.of_nat (m_nbody m))%Z) (m_dof_bodyid m).
(** Linear and angular velocity of an object under joint velocities [v], given
    its 6-column Jacobian with one row per degree of freedom. *)
Definition linear_velocity (J : mat) (v : vec) : vec := map (fun c => dot (map (fun row => nth c row 0) J) v) [0; 1; 2]%nat.
Definition angular_velocity (J : mat) (v : vec) : vec := map (fun c => dot (map (fun row => nth c row 0) J) v) [3; 4; 5]%nat.
