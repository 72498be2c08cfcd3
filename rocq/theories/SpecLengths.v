(** Vocabulary for arrays whose length does not fit the model. *)
From Verif Require Import Base Lin Mjx SpecJoint SpecMotion.
Open Scope R_scope.

(** Entry [i] of the array, or its last entry if it ends before. *)
Definition entry_or_last (l : list R) (i : nat) : R := nth (Nat.min i (List.length l - 1)) l 0.
(** Only hinge and slide joints. *)
Definition only_scalar_joints (m : mjmodel) : Prop := forall j t, joint_type m j t -> t = JHinge \/ t = JSlide.
(** [k] velocities suffice for joint [j]: a hinge or slide joint needs any at
    all, a free joint needs a first linear velocity, and not exactly two of the
    three; a ball joint needs none. *)
Definition enough_for (m : mjmodel) (k j : nat) : Prop :=
  match nth_error (m_jnt_type m) j with
  | Some JHinge | Some JSlide => (0 < k)%nat
  | Some JFree => (dof_of m j < k)%nat /\ k <> (dof_of m j + 2)%nat
  | Some JBall | None => True
  end.
