(** Vocabulary for the joint components: which joints they control. *)
From Verif Require Import Base Lin Mjx.
Open Scope nat_scope.

(** Ids of the hinge and slide joints, in order, starting to count at [j]. *)
Fixpoint scalar_joints (ts : list jnttype) (j : nat) : list nat :=
  match ts with
  | [] => []
  | t :: r => if is_scalar t then j :: scalar_joints r (S j) else scalar_joints r (S j)
  end.

(** The joints selected by the user mask: the i-th mask entry belongs to the
    i-th hinge/slide joint; no mask selects all of them. *)
Definition selected (m : mjmodel) (msk : option (list Z)) : list nat :=
  let sj := scalar_joints (m_jnt_type m) 0 in
  match msk with
  | None => sj
  | Some f => map fst (filter (fun p => negb (snd p =? 0)%Z) (combine sj f))
  end.

Definition n_scalar (m : mjmodel) : nat := List.length (scalar_joints (m_jnt_type m) 0).

(** Position of joint [j] in qpos and in qvel, as published by the model. *)
Definition qpos_of (m : mjmodel) (j : nat) : nat := nth j (m_jnt_qposadr m) 0.
Definition dof_of (m : mjmodel) (j : nat) : nat := nth j (m_jnt_dofadr m) 0.
Definition range_of (m : mjmodel) (j : nat) : R * R := nth j (m_jnt_range m) (0%R, 0%R).

(** The mask fits the model. *)
Definition mask_fits (m : mjmodel) (msk : option (list Z)) : Prop :=
  match msk with None => True | Some f => List.length f = n_scalar m end.

(** [q] and [v] are the qpos and dof indices of the selected joints: same joints,
    in increasing order, each a hinge or slide joint, all inside qpos and qvel. *)
Definition joint_indices (m : mjmodel) (fm : option (list Z)) (q v : list Z) : Prop :=
  q = map (fun j => Z.of_nat (qpos_of m j)) (selected m fm) /\
  v = map (fun j => Z.of_nat (dof_of m j)) (selected m fm) /\
  StronglySorted lt (selected m fm) /\
  StronglySorted lt (map (qpos_of m) (selected m fm)) /\ StronglySorted lt (map (dof_of m) (selected m fm)) /\
  (forall j, In j (selected m fm) -> qpos_of m j < m_nq m /\ dof_of m j < m_nv m /\
     exists t, nth_error (m_jnt_type m) j = Some t /\ is_scalar t = true).
