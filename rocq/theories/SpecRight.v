(** The turning part of a velocity. *)
From Verif Require Import Base Lin Mjx SpecJoint Rot Conf SpecMotion SpecConf SpecDeriv.
Open Scope R_scope.
(** [w] turns ball and free joints as [v] does and moves nothing else. *)
Definition turning_part (m : mjmodel) (v w : vec) : Prop :=
  List.length w = List.length v /\ only_turns m w /\ forall j a b, quat_joint m j a b -> vec_in w b = vec_in v b.
