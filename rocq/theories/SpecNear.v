(** Vocabulary for C124: how far the frame error may be from an exact twist. *)
From Verif Require Import Base Lin Rot SpecValue SpecTwist.
Open Scope R_scope.

(** [b] bounds the deviation for the orientations [A] and [B]: it is zero where jaxlie's
    logarithm uses no approximation, [2 eps^2] where the orientations are close, and
    [3 eps] near half turns. With angle a, trace (A^T B) = 1 + 2 cos a. *)
Definition deviation (eps : R) (A B : m3) (b : R) : Prop :=
  (exact_range eps A B /\ b = 0)
  \/ (3 - 4 * eps < trace (m3_mul (m3_tr A) B) /\ b = 2 * (eps * eps))
  \/ (trace (m3_mul (m3_tr A) B) < 4 * (eps * eps) - 1 /\ b = 3 * eps).
(** The twist [l], [w] leads from the pose [M], [x] to the pose [N], [y] in one unit of
    time: there is a motion with these velocities, and every such motion arrives. *)
Definition leads_to (l w : v3) (M : m3) (x : v3) (N : m3) (y : v3) : Prop :=
  (exists Q X, moves_with l w Q X /\ Q 0 = M /\ X 0 = x) /\
  (forall Q X, moves_with l w Q X -> Q 0 = M -> X 0 = x -> Q 1 = N /\ X 1 = y).
(** Two vectors are at most [b] apart. *)
Definition within (b : R) (v w : v3) : Prop := v3_norm2 (v3_sub v w) <= b * b.
