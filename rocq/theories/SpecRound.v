(** Vocabulary for rounding: configurations that are computed with an error. *)
From Flocq Require Import Core.Zaux Core.Raux Core.Defs Core.Generic_fmt Core.FLT Core.Round_NE.
From Verif Require Import Base Lin Mjx Typing Component Problem SpecComponent SpecJoint SpecHistory Conf JaxComponents LocalIK SpecMotion SpecQP SpecSolve SpecClosed SpecTol.
Open Scope R_scope.

(** The configuration [q'] has the right length, and every hinge and slide is within [rho] of where
    it is in [x].  Nothing is said of the other joints. *)
Definition off_by (rho : R) (m : mjmodel) (x q' : vec) : Prop :=
  List.length q' = m_nq m /\ forall i t, joint_type m i t -> is_scalar t = true -> Rabs (nth (qpos_of m i) q' 0 - nth (qpos_of m i) x 0) <= rho.

(** A loop of which only this is known: the problem may change from step to step; each velocity
    meets the conditions of the problem up to [eps]; each configuration is the integrated one up
    to [rho]. *)
Definition rounded_loop (eps rho : R) (L : lib) (m : mjmodel) (pd : nat -> jdata) (dt : R) (q v : nat -> vec) : Prop :=
  List.length (q 0%nat) = m_nq m /\
  forall k, nearly eps L (update L m (q k)) (pd k) (v k) /\ exists x, integrate m (q k) (v k) dt = Ok x /\ off_by rho m x (q (S k)).

(** Rounding to the nearest number of the format binary32, ties to even.  jax computes in this
    format unless told otherwise.  Overflow to infinity is not modelled. *)
Definition fl32 (x : R) : R := round radix2 (FLT_exp (-149) 24) ZnearestE x.
(** The same loop where the new position of a hinge or slide is q + dt * v with both operations
    rounded. *)
Definition fl32_loop (eps : R) (L : lib) (m : mjmodel) (pd : nat -> jdata) (dt : R) (q v : nat -> vec) : Prop :=
  forall k, List.length (q k) = m_nq m /\ nearly eps L (update L m (q k)) (pd k) (v k) /\
    forall i t, joint_type m i t -> is_scalar t = true ->
      nth (qpos_of m i) (q (S k)) 0 = fl32 (nth (qpos_of m i) (q k) 0 + fl32 (dt * nth (dof_of m i) (v k) 0)).
(** Every entry is at most [b] in absolute value. *)
Definition at_most (b : R) (x : vec) : Prop := Forall (fun a => Rabs a <= b) x.
