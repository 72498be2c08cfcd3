(** Vocabulary for closed loops: evaluate, pick a velocity, integrate, repeat. *)
From Verif Require Import Base Lin Mjx Typing Component Problem Conf JaxComponents LocalIK SpecQP SpecMotion.
Open Scope R_scope.

(** Each step evaluates the configuration, applies some velocity that satisfies
    the inequality constraints of the local IK problem there, and integrates. *)
Definition safe_loop (L : lib) (m : mjmodel) (pd : jdata) (dt : R) (q v : nat -> vec) : Prop :=
  List.length (q 0%nat) = m_nq m /\
  forall k, exists Q, assemble L m pd (update L m (q k)) = Ok Q /\ List.length (v k) = m_nv m /\
    satisfies_ineq (qp_G Q) (qp_h Q) (v k) /\ integrate m (q k) (v k) dt = Ok (q (S k)).

(** Each step applies a velocity with J v = - gain * error, and integrates. *)
Definition task_loop (L : lib) (m : mjmodel) (j : jaxc) (dt : R) (q v : nat -> vec) : Prop :=
  List.length (q 0%nat) = m_nq m /\
  forall k, exists J e, jacobian L j (update L m (q k)) = Ok J /\ call L j (update L m (q k)) = Ok e /\
    List.length (v k) = m_nv m /\ mv J (v k) = vneg (gained j e) /\ integrate m (q k) (v k) dt = Ok (q (S k)).

(** [v] minimises the cost of component [j] alone. *)
Definition unconstrained_optimum (L : lib) (m : mjmodel) (d : mjdata) (j : jaxc) (v : vec) : Prop :=
  List.length v = m_nv m /\
  forall x w y, cost_of L d j v x -> List.length w = m_nv m -> cost_of L d j w y -> x <= y.
