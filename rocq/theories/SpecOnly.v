(** Vocabulary for C125: arriving at a pose. *)
From Verif Require Import Base Lin Rot SpecValue SpecTwist.
Open Scope R_scope.

(** Some motion with the twist [l], [w] is at the pose [M], [x] at time 0 and at the pose
    [N], [y] at time 1. *)
Definition arrives (l w : v3) (M : m3) (x : v3) (N : m3) (y : v3) : Prop :=
  exists Q X, moves_with l w Q X /\ Q 0 = M /\ X 0 = x /\ Q 1 = N /\ X 1 = y.
