(** Vocabulary for the local IK problem. *)
From Verif Require Import Base Lin Mjx Typing Component Problem JaxComponents LocalIK.
Open Scope R_scope.

(** Squared length. *)
Definition sq (v : vec) : R := dot v v.

(** The gain-weighted value: entry i is gain_i * gain_fn(e_i). *)
Definition gained (j : jaxc) (e : vec) : vec := vmul (j_gain j) (map (j_gain_fn j) e).

(** Kinds of compiled components. *)
Definition is_barrier (j : jaxc) : bool := match j_ext j with JBarrier _ _ => true | _ => false end.
Definition is_hard (j : jaxc) : bool := match j_ext j with JConstraint _ true _ _ => true | _ => false end.

(** The arrays of a component fit together and to a robot with [nv] dofs. *)
Definition well_shaped (L : lib) (nv : nat) (d : mjdata) (j : jaxc) : Prop :=
  forall J e, jacobian L j d = Ok J -> call L j d = Ok e ->
    is_mat (List.length e) nv J /\ List.length (j_gain j) = List.length e.

(** What one component adds to the objective at velocity [v]. *)
Inductive cost_of (L : lib) (d : mjdata) (j : jaxc) (v : vec) : R -> Prop :=
| cost_task W lm k J e : j_ext j = JTask W lm k -> jacobian L j d = Ok J -> call L j d = Ok e ->
    cost_of L d j v (1 / 2 * sq (mv W (vadd (mv J v) (gained j e))) + 1 / 2 * (lm * sq (mv W (gained j e))) * sq v)
| cost_soft act W k J e : j_ext j = JConstraint act false W k -> jacobian L j d = Ok J -> call L j d = Ok e ->
    cost_of L d j v (1 / 2 * sq (mv W (vadd (mv J v) (gained j e))))
| cost_barrier sdg k J : j_ext j = JBarrier sdg k -> jacobian L j d = Ok J -> frob2 J <> 0 ->
    cost_of L d j v (1 / 2 * (sdg / frob2 J) * sq v)
| cost_hard act W k : j_ext j = JConstraint act true W k -> cost_of L d j v 0.

(** The documented objective of a problem: the sum over its components. *)
Definition total_cost (L : lib) (d : mjdata) (js : list jaxc) (v : vec) (x : R) : Prop :=
  exists xs, Forall2 (fun j y => cost_of L d j v y) js xs /\ x = vsum xs.
Definition comps_of (pd : jdata) : list jaxc := map snd (jd_comps pd).

(** The control barrier condition of one barrier: J v >= - gain * gain_fn(h), entry by entry. *)
Definition cbf (L : lib) (d : mjdata) (v : vec) (j : jaxc) : Prop :=
  forall J e, jacobian L j d = Ok J -> call L j d = Ok e -> vle (vneg (gained j e)) (mv J v).
(** The equation of one hard constraint: J v = - gain * gain_fn(f). *)
Definition holds_exactly (L : lib) (d : mjdata) (v : vec) (j : jaxc) : Prop :=
  forall J e, jacobian L j d = Ok J -> call L j d = Ok e -> mv J v = vneg (gained j e).

(** Feasibility for a system G v <= h, A v = b. *)
Definition satisfies_ineq (G : mat) (h v : vec) : Prop := vle (mv G v) h.
Definition satisfies_eq (eq : option (mat * vec)) (v : vec) : Prop :=
  match eq with None => True | Some (A, b) => mv A v = b end.

(** Value, Jacobian, gain and weight of a component are there and fit together. *)
Definition fits (L : lib) (nv : nat) (d : mjdata) (j : jaxc) : Prop :=
  exists J e, jacobian L j d = Ok J /\ call L j d = Ok e /\ is_mat (List.length e) nv J /\ List.length (j_gain j) = List.length e /\
  match j_ext j with
  | JTask W _ _ | JConstraint _ false W _ => is_mat (List.length e) (List.length e) W
  | JBarrier _ _ => m_nv (j_model j) = nv
  | _ => True
  end.
(** Damping and safe-displacement gain are not negative. *)
Definition nonneg_weights (j : jaxc) : Prop :=
  match j_ext j with JTask _ lm _ => 0 <= lm | JBarrier sdg _ => 0 <= sdg | JConstraint _ _ _ _ => True end.

(** [v] satisfies all constraints of [Q] and no such vector of [nv] entries has a
    smaller value of the documented objective. *)
Definition feasible (Q : qp) (v : vec) : Prop := satisfies_ineq (qp_G Q) (qp_h Q) v /\ satisfies_eq (qp_eq Q) v.
Definition objective (Q : qp) (v : vec) : R := 1 / 2 * dot v (mv (qp_P Q) v) + dot (qp_c Q) v.
Definition optimal (nv : nat) (Q : qp) (v : vec) : Prop :=
  List.length v = nv /\ feasible Q v /\ forall w, List.length w = nv -> feasible Q w -> objective Q v <= objective Q w.

(** Karush-Kuhn-Tucker conditions for min 1/2 v'Pv + c'v, A v = b, G v <= h. *)
Definition eq_matrix (Q : qp) : mat := match qp_eq Q with None => [] | Some (A, _) => A end.
Definition kkt (nv : nat) (Q : qp) (v y z : vec) : Prop :=
  List.length v = nv /\ feasible Q v /\
  List.length y = List.length (eq_matrix Q) /\ List.length z = List.length (qp_G Q) /\ vnonneg z /\
  vadd (vadd (vadd (mv (qp_P Q) v) (qp_c Q)) (vm nv y (eq_matrix Q))) (vm nv z (qp_G Q)) = vzero nv /\
  vmul z (vsub (mv (qp_G Q) v) (qp_h Q)) = vzero (List.length z).

(** The gained error of a task or soft constraint is zero (no condition on others). *)
Definition at_rest (L : lib) (d : mjdata) (j : jaxc) : Prop :=
  is_barrier j = true \/ is_hard j = true \/ forall e, call L j d = Ok e -> gained j e = vzero (List.length e).

(** [pd] is what problem number [pi] compiles to after the program [os]. *)
Definition compiled_by (os : list wop) (pi : nat) (pd : jdata) : Prop :=
  fst (step (WCompile pi) (run os empty_world)) = Ok (OData pd).
(** The same compiled problem with the [active] flag of every constraint replaced. *)
Definition with_active (f : bool -> bool) (j : jaxc) : jaxc :=
  match j_ext j with
  | JConstraint act h W k => mkJ (j_dim j) (j_model j) (j_gain j) (j_gain_fn j) (j_mask_idxs j) (JConstraint (f act) h W k)
  | _ => j
  end.

(** Rows (with right-hand sides) of the inequality and equality system. *)
Definition row_pairs (M : mat) (r : vec) : list (vec * R) := combine M r.
Definition eq_rows (e : option (mat * vec)) : list (vec * R) := match e with None => [] | Some (A, b) => row_pairs A b end.
(** Values and Jacobians of a list of components. *)
Definition data_of (L : lib) (d : mjdata) (js : list jaxc) (Js : list mat) (es : list vec) : Prop :=
  Forall2 (fun j J => jacobian L j d = Ok J) js Js /\ Forall2 (fun j e => call L j d = Ok e) js es.
