(** Vocabulary for C123: rigid bodies moving with a constant twist. *)
From Verif Require Import Base Lin Rot SpecValue.
Open Scope R_scope.

(** The matrix of the cross product with [w]. *)
Definition cross_mat (w : v3) : m3 := mkM3 0 (- vz w) (vy w) (vz w) 0 (- vx w) (- vy w) (vx w) 0.
(** At time [s] the entries of a vector (a matrix) change at the given rates. *)
Definition rate_v (X : R -> v3) (s : R) (D : v3) : Prop :=
  derivable_pt_lim (fun t => vx (X t)) s (vx D) /\ derivable_pt_lim (fun t => vy (X t)) s (vy D) /\ derivable_pt_lim (fun t => vz (X t)) s (vz D).
Definition row0 (M : m3) : v3 := mkV (m00 M) (m01 M) (m02 M).
Definition row1 (M : m3) : v3 := mkV (m10 M) (m11 M) (m12 M).
Definition row2 (M : m3) : v3 := mkV (m20 M) (m21 M) (m22 M).
Definition rate_m (Q : R -> m3) (s : R) (D : m3) : Prop :=
  rate_v (fun t => row0 (Q t)) s (row0 D) /\ rate_v (fun t => row1 (Q t)) s (row1 D) /\ rate_v (fun t => row2 (Q t)) s (row2 D).
(** A body with orientation [Q] and position [X] that moves with linear velocity [l] and
    angular velocity [w], both constant in the frame of the body. *)
Definition moves_with (l w : v3) (Q : R -> m3) (X : R -> v3) : Prop :=
  forall s, rate_m Q s (m3_mul (Q s) (cross_mat w)) /\ rate_v X s (m3_app (Q s) l).
(** The orientations [A] and [B] are equal, differ by exactly a half turn, or differ by an
    angle for which jaxlie's logarithm uses no approximation: with angle a,
    trace (A^T B) = 1 + 2 cos a. *)
Definition exact_range (eps : R) (A B : m3) : Prop :=
  A = B \/ half_turn A B \/ 4 * (eps * eps) - 1 <= trace (m3_mul (m3_tr A) B) <= 3 - 4 * eps.
