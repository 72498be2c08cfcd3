(** C126 and C127 for the velocity that the solver returns. *)
From Verif Require Import Base Lin Mjx Problem JaxComponents LocalIK SpecQP SpecSolve SpecShape.

(** Differentiation of a function with outputs of one length yields a matrix of the
    corresponding shape (this is what [sound_lib] asks of it). *)
Definition shaped_jac (D : (list R -> res (list R)) -> list R -> res mat) : Prop :=
  forall f x k, (forall x', List.length x' = List.length x -> exists y, f x' = Ok y /\ List.length y = k) -> exists J, D f x = Ok J /\ is_mat k (List.length x) J.
(** The QP solver minimises the programme of this problem at these data. *)
Definition exact_at (L : lib) (So : qpsolver) (m : mjmodel) (pd : jdata) (d : mjdata) : Prop := forall Q, assemble L m pd d = Ok Q -> minimises So Q.
