(** Vocabulary for goals that can all be met at once. *)
From Verif Require Import Base Lin Mjx Typing Component Problem SpecComponent JaxComponents LocalIK SpecQP SpecSolve SpecDescent.
Open Scope R_scope.

(** At velocity [v] every task and every soft constraint gets exactly the velocity it asks
    for: J v = - gain * gain_fn(e). *)
Definition meets_goals (L : lib) (d : mjdata) (v : vec) (pd : jdata) : Prop := Forall (fun j => seeks j = true -> holds_exactly L d v j) (comps_of pd).
(** No weighted combination of errors goes unnoticed: only the zero error has zero weighted
    error. *)
Definition cares (j : jaxc) : Prop := seeks j = true -> forall x, List.length x = List.length (j_gain j) -> (forall y, In y (mv (weight_of j) x) -> y = 0) -> forall y, In y x -> y = 0.
(** Nothing in the cost of [j] penalises velocity as such: a task has no Levenberg-Marquardt
    damping or its weighted error is already zero, a barrier has no safe displacement gain. *)
Definition quiet (L : lib) (d : mjdata) (j : jaxc) : Prop :=
  match j_ext j with
  | JTask W lm _ => lm = 0 \/ forall e, call L j d = Ok e -> forall y, In y (mv W (gained j e)) -> y = 0
  | JBarrier sdg _ => sdg = 0
  | JConstraint _ _ _ _ => True
  end.
(** The robot moves. *)
Definition moving (v : vec) : Prop := exists y, In y v /\ y <> 0.
(** A cost without zeros: a scalar or one number per axis. *)
Definition weighs_all (cost : tensor) (d : nat) : Prop :=
  (exists x, cost = mkT [] [x] /\ x <> 0) \/ (t_shape cost = [d] /\ forall i, (i < d)%nat -> nth i (t_data cost) 0 <> 0).
