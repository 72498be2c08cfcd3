(** Vocabulary for existence, uniqueness and invariance of the local IK solution. *)
From Verif Require Import Base Lin Mjx Typing Component Problem JaxComponents LocalIK SpecQP.
Open Scope R_scope.

(** [v] meets every documented condition of the problem: the velocity box as the
    solver uses it (signs swapped, see C46), the barrier conditions and the hard
    constraints.  Nothing here mentions the assembled matrices. *)
Definition admissible (L : lib) (d : mjdata) (pd : jdata) (v : vec) : Prop :=
  List.length v = m_nv (jd_model pd) /\ vle v (vneg (jd_vmin pd)) /\ vle (vneg v) (jd_vmax pd) /\
  Forall (fun j => (is_barrier j = true -> cbf L d v j) /\ (is_hard j = true -> holds_exactly L d v j)) (comps_of pd).

(** The robot may stand still: barriers are not violated and pull in the safe
    direction, hard constraints hold, and zero is within the velocity limits. *)
Definition calm (L : lib) (d : mjdata) (j : jaxc) : Prop :=
  (is_barrier j = true -> vnonneg (j_gain j) /\ (forall x, 0 <= x -> 0 <= j_gain_fn j x) /\ forall e, call L j d = Ok e -> vnonneg e) /\
  (is_hard j = true -> j_gain_fn j 0 = 0 /\ forall e, call L j d = Ok e -> e = vzero (List.length e)).
Definition may_rest (L : lib) (d : mjdata) (pd : jdata) : Prop :=
  vle (jd_vmin pd) (vzero (m_nv (jd_model pd))) /\ vle (vzero (m_nv (jd_model pd))) (jd_vmax pd) /\ Forall (calm L d) (comps_of pd).

(** The component has an opinion on every direction of motion. *)
Inductive pins (L : lib) (nv : nat) (d : mjdata) (j : jaxc) : Prop :=
| pin_task W lm k J : j_ext j = JTask W lm k -> jacobian L j d = Ok J ->
    (forall v, List.length v = nv -> (forall x, In x (mv W (mv J v)) -> x = 0) -> v = vzero nv) -> pins L nv d j
| pin_soft a W k J : j_ext j = JConstraint a false W k -> jacobian L j d = Ok J ->
    (forall v, List.length v = nv -> (forall x, In x (mv W (mv J v)) -> x = 0) -> v = vzero nv) -> pins L nv d j
| pin_damping W lm k e x : j_ext j = JTask W lm k -> 0 < lm -> call L j d = Ok e -> In x (mv W (gained j e)) -> x <> 0 -> pins L nv d j
| pin_barrier g k : j_ext j = JBarrier g k -> 0 < g -> pins L nv d j.

(** Weighted task-space velocity of a task or soft constraint at joint velocity [v]. *)
Inductive weighted_velocity (L : lib) (d : mjdata) (j : jaxc) (v : vec) : vec -> Prop :=
| wv_task W lm k J : j_ext j = JTask W lm k -> jacobian L j d = Ok J -> weighted_velocity L d j v (mv W (mv J v))
| wv_soft a W k J : j_ext j = JConstraint a false W k -> jacobian L j d = Ok J -> weighted_velocity L d j v (mv W (mv J v)).

(** The best admissible velocity: no admissible velocity has a lower documented cost. *)
Definition best (L : lib) (d : mjdata) (pd : jdata) (v : vec) : Prop :=
  admissible L d pd v /\ exists x, total_cost L d (comps_of pd) v x /\
  forall w, admissible L d pd w -> exists y, total_cost L d (comps_of pd) w y /\ x <= y.
(** The QP solver returns a minimiser of this quadratic programme if it has one. *)
Definition minimises (So : qpsolver) (Q : qp) : Prop :=
  forall n, n = List.length (qp_c Q) -> (exists v, optimal n Q v) -> optimal n Q (sol_primal (So Q)).

(** The same component with its weight multiplied by [s] (safe-displacement gains are
    weights of a square, so they are multiplied by the square of [s]). *)
Definition rescaled (s : R) (j : jaxc) : jaxc :=
  mkJ (j_dim j) (j_model j) (j_gain j) (j_gain_fn j) (j_mask_idxs j)
    match j_ext j with
    | JTask W lm k => JTask (mscale s W) lm k
    | JBarrier g k => JBarrier (s * s * g) k
    | JConstraint a false W k => JConstraint a false (mscale s W) k
    | JConstraint a true W k => JConstraint a true W k
    end.
(** A compiled problem with other components. *)
Definition with_components (pd : jdata) (cs : list (string * jaxc)) : jdata := mkJD (jd_model pd) (jd_vmin pd) (jd_vmax pd) cs.
Definition rescaled_problem (s : R) (pd : jdata) : jdata := with_components pd (map (fun e => (fst e, rescaled s (snd e))) (jd_comps pd)).
(** The array [t] multiplied by [s]. *)
Definition scaled_array (s : R) (t : tensor) : tensor := mkT (t_shape t) (map (Rmult s) (t_data t)).
(** Calls that multiply the cost of each task listed in [cis] by [s]. *)
Definition task_cost (w : world) (ci : nat) : tensor :=
  match nth_error (w_comps w) ci with
  | Some c => match a_ext (c_at c) with XTask t _ _ => t | _ => tscalar 0 end
  | None => tscalar 0
  end.
Definition rescale_costs (s : R) (w : world) (cis : list nat) : list wop := map (fun ci => WCop ci (OpCost (scaled_array s (task_cost w ci)))) cis.
(** [cis] lists the tasks of problem [pi] (components that have a cost), each once. *)
Definition lists_tasks (w : world) (pi : nat) (cis : list nat) : Prop :=
  NoDup cis /\ forall ci, In ci cis <-> exists p n c t lm k, nth_error (w_probs w) pi = Some p /\ In (n, ci) (p_comps p) /\ nth_error (w_comps w) ci = Some c /\ a_ext (c_at c) = XTask t lm k.
(** No cost other than those of tasks: barriers without safe displacement, no soft constraint. *)
Definition only_task_costs (j : jaxc) : Prop :=
  match j_ext j with JTask _ _ _ => True | JBarrier g _ => g = 0 | JConstraint _ h _ _ => h = true end.
(** A task or soft constraint whose weight matrix is zero. *)
Definition zero_matrix (W : mat) : Prop := forall r x, In r W -> In x r -> x = 0.
Definition weightless (j : jaxc) : Prop :=
  match j_ext j with JTask W _ _ => zero_matrix W | JConstraint _ false W _ => zero_matrix W | _ => False end.
(** Component [ci] is in problem [pi] under the name [n] and no other name. *)
Definition registered (os : list wop) (pi : nat) (n : string) (ci : nat) : Prop :=
  exists p, nth_error (w_probs (run os empty_world)) pi = Some p /\ In (n, ci) (p_comps p) /\ forall n', In (n', ci) (p_comps p) -> n' = n.
