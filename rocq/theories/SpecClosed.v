(** Vocabulary for C94: the documented control loop, turn after turn. *)
From Verif Require Import Base Lin Mjx Typing Component Problem SpecComponent SpecJoint SpecHistory SpecTree SpecShape SpecContact SpecValue SpecFit SpecTrace SpecSetup Conf JaxComponents LocalIK SpecMotion SpecQP SpecProblem SpecSolve.
Open Scope R_scope.

(** Each turn makes the calls [os], compiles problem 0, solves at the current
    configuration and integrates the velocity found:
      q, data -> compile -> solve -> integrate -> next turn.
    The trace lists the configuration, the compiled problem and the velocity of each turn. *)
Inductive control_loop (L : lib) (So : qpsolver) (m : mjmodel) (dt : R) : list wop -> list (list wop) -> vec -> vec -> list (vec * jdata * vec) -> vec -> Prop :=
| loop_end prog q s : control_loop L So m dt prog [] q s [] q
| loop_turn prog os turns q s pd sol v q1 tr q2 :
    compiled_by (prog ++ os) 0 pd -> solve L So m (tvec q) s pd = Ok (sol, v) -> integrate m q v dt = Ok q1 ->
    control_loop L So m dt (prog ++ os ++ [WCompile 0]) turns q1 v tr q2 ->
    control_loop L So m dt prog (os :: turns) q s ((q, pd, v) :: tr) q2.

(** Components of such a loop: tasks of the library's classes, and joint barriers on at
    least one joint. *)
Definition tracks (m : mjmodel) (c : comp) : Prop :=
  match a_ext (c_at c) with
  | XTask _ _ (TCustom _) => False
  | XTask _ _ _ => True
  | XBarrier _ (BJoint j) => selected m (jb_final j) <> []
  | _ => False
  end.
(** Barrier gains that do not overshoot in a time step [dt], with the default gain function. *)
Definition mild (dt : R) (c : comp) : Prop :=
  match a_ext (c_at c) with
  | XBarrier _ _ => (forall x, a_gain_fn (c_at c) x = x) /\ Forall (fun a => 0 <= a /\ a * dt <= 1) (t_data (a_gain (c_at c)))
  | _ => True
  end.
(** Configuration [q] is within the limits of [c] if it is a joint barrier: those it was
    given, or else the joint ranges of the robot. *)
Definition lower_limits (m : mjmodel) (j : jbar_at) : vec :=
  match jb_qmin j with Some t => t_data t | None => map (fun k => fst (range_of m k)) (scalar_joints (m_jnt_type m) 0) end.
Definition upper_limits (m : mjmodel) (j : jbar_at) : vec :=
  match jb_qmax j with Some t => t_data t | None => map (fun k => snd (range_of m k)) (scalar_joints (m_jnt_type m) 0) end.
Definition in_limits (m : mjmodel) (q : vec) (c : comp) : Prop :=
  match a_ext (c_at c) with
  | XBarrier _ (BJoint j) => within (lower_limits m j) (upper_limits m j) (sel_pos m (jb_final j) q)
  | _ => True
  end.
(** Velocity limits with zero between them. *)
Definition below_zero (t : tensor) : Prop := Forall (fun x => x <= 0) (t_data t).
Definition above_zero (t : tensor) : Prop := Forall (fun x => 0 <= x) (t_data t).
(** The call does not move joint limits, and leaves zero between the velocity limits. *)
Definition keeps_limits (o : wop) : Prop :=
  match o with
  | WCop _ (OpQMin _) | WCop _ (OpQMax _) => False
  | WVmin _ t => below_zero t
  | WVmax _ t => above_zero t
  | _ => True
  end.
(** Calls between two compilations: assignments of plain vectors to targets, bounds and
    limits, and look-ups. *)
Definition loop_call (o : wop) : Prop := steering o /\ proper o /\ plain_call o.
(** The QP solver returns a vector with one entry per variable. *)
Definition one_entry_each (So : qpsolver) : Prop := forall Q, List.length (sol_primal (So Q)) = List.length (qp_c Q).
(** In this turn the solver was exact: it returned a minimiser of the quadratic programme
    if there is one. *)
Definition exact_turn (L : lib) (So : qpsolver) (m : mjmodel) (t : vec * jdata * vec) : Prop :=
  let '(q, pd, v) := t in forall Q, assemble L m pd (update L m q) = Ok Q -> minimises So Q.
(** Every hinge and slide of the robot is within its joint range. *)
Definition in_range (m : mjmodel) (q : vec) : Prop :=
  forall j t, joint_type m j t -> is_scalar t = true -> fst (range_of m j) <= nth (qpos_of m j) q 0 <= snd (range_of m j).
