(** Vocabulary for the closed loop: errors that shrink, barriers that hold. *)
From Verif Require Import Base Lin Mjx Typing Component Problem SpecComponent SpecJoint SpecHistory Rot SpecConf Conf JaxComponents LocalIK SpecQP SpecMotion SpecSolve.
Open Scope R_scope.

(** Components with an error the solver reduces: tasks and soft constraints. *)
Definition seeks (j : jaxc) : bool := match j_ext j with JTask _ _ _ => true | JConstraint _ false _ _ => true | _ => false end.
Definition weight_of (j : jaxc) : mat := match j_ext j with JTask W _ _ => W | JConstraint _ _ W _ => W | JBarrier _ _ => [] end.
(** Linear gain function and the same gain [g] for all axes. *)
Definition uniform (g : R) (j : jaxc) : Prop := Forall (eq g) (j_gain j) /\ forall x, j_gain_fn j x = x.

(** How much of the weighted error is left: g/2 |W e|^2 for tasks and soft constraints. *)
Inductive energy_of (L : lib) (d : mjdata) (j : jaxc) : R -> Prop :=
| en_seeks e g : seeks j = true -> call L j d = Ok e -> uniform g j -> energy_of L d j (g / 2 * sq (mv (weight_of j) e))
| en_other : seeks j = false -> energy_of L d j 0.
Definition energy (L : lib) (d : mjdata) (js : list jaxc) (x : R) : Prop := exists xs, Forall2 (energy_of L d) js xs /\ x = vsum xs.

(** Inner product of the weighted gained error with the weighted task velocity, and
    the squared weighted task velocity, when moving with [v]. *)
Inductive progress (L : lib) (d : mjdata) (v : vec) (j : jaxc) : R * R -> Prop :=
| pr_seeks J e : seeks j = true -> jacobian L j d = Ok J -> call L j d = Ok e ->
    progress L d v j (dot (mv (weight_of j) (gained j e)) (mv (weight_of j) (mv J v)), sq (mv (weight_of j) (mv J v)))
| pr_other : seeks j = false -> progress L d v j (0, 0).

(** From [d] to [d'] the error of [j] changes by dt J v. *)
Definition advances (L : lib) (dt : R) (v : vec) (d d' : mjdata) (j : jaxc) : Prop :=
  forall e J, call L j d = Ok e -> jacobian L j d = Ok J -> call L j d' = Ok (vadd e (vscale dt (mv J v))).
(** Along the data [ds] the value of [j] changes at the rate J v: the Jacobian is the
    derivative of the value along the motion (see C18, C19, C76, C34 for when it is). *)
Definition flows (L : lib) (a b : R) (vs : R -> vec) (ds : R -> mjdata) (j : jaxc) : Prop :=
  exists n (e : R -> vec) (J : R -> mat), forall t, a < t < b -> call L j (ds t) = Ok (e t) /\ jacobian L j (ds t) = Ok (J t) /\ List.length (e t) = n /\
    forall i, (i < n)%nat -> derivable_pt_lim (fun s => nth i (e s) 0) t (nth i (mv (J t) (vs t)) 0).

(** ** Closed loop through the solver *)
(** Joint tasks with one gain g, 0 <= g dt <= 2, and joint limits with gains 0 <= a dt <= 1
    on at least one joint; linear gain functions. *)
Inductive posture (m : mjmodel) (dt : R) (j : jaxc) : Prop :=
| po_task fm t g : joint_task fm j -> has_target j t -> uniform g j -> 0 <= g * dt <= 2 -> posture m dt j
| po_limits fm lo hi : joint_barrier fm j -> has_limits j lo hi -> List.length lo = List.length (selected m fm) -> List.length hi = List.length (selected m fm) ->
    selected m fm <> [] -> (forall x, j_gain_fn j x = x) -> Forall (fun a => 0 <= a * dt <= 1) (j_gain j) -> posture m dt j.
(** No barrier is violated at the data [d]. *)
Definition unviolated (L : lib) (d : mjdata) (j : jaxc) : Prop := is_barrier j = true -> forall e, call L j d = Ok e -> vnonneg e.
(** Each step calls solve at the current configuration and integrates the result. *)
Definition solve_loop (L : lib) (So : qpsolver) (m : mjmodel) (pd : jdata) (dt : R) (q v : nat -> vec) : Prop :=
  forall k, (exists v0 s, solve L So m (tvec (q k)) v0 pd = Ok (s, v k)) /\ integrate m (q k) (v k) dt = Ok (q (S k)).

(** ** Continuous time *)
(** At all times in (a, b) hinges and slides move with the given velocity. *)
Definition follows (m : mjmodel) (a b : R) (vs qs : R -> vec) : Prop :=
  (forall t, List.length (qs t) = m_nq m) /\
  forall t, a < t < b -> List.length (vs t) = m_nv m /\
    forall x, scalar_joint m x -> derivable_pt_lim (fun s => nth (qpos_of m x) (qs s) 0) t (nth (dof_of m x) (vs t) 0).
