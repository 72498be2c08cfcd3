(** Vocabulary for solvers with a tolerance: constraints met up to [eps], objective up to some
    amount above the least. *)
From Verif Require Import Base Lin Mjx Typing Component Problem SpecComponent SpecJoint SpecHistory Conf JaxComponents LocalIK SpecMotion SpecQP SpecSolve SpecClosed.
Open Scope R_scope.

(** [x <= y + eps] and [|x - y| <= eps], entry by entry. *)
Definition vle_by (eps : R) (x y : vec) : Prop := Forall2 (fun a b => a <= b + eps) x y.
Definition close_by (eps : R) (x y : vec) : Prop := Forall2 (fun a b => Rabs (a - b) <= eps) x y.

(** What a QP solver promises when it stops: a vector of the right size that violates no row
    of the constraints by more than [eps]. *)
Definition residual (eps : R) (Q : qp) (v : vec) : Prop :=
  vle_by eps (mv (qp_G Q) v) (qp_h Q) /\ match qp_eq Q with None => True | Some (A, b) => close_by eps (mv A v) b end.

(** The documented conditions up to [eps]: J v >= - gain * gain_fn(h) - eps for barriers,
    |J v + gain * gain_fn(f)| <= eps for hard constraints. *)
Definition cbf_by (eps : R) (L : lib) (d : mjdata) (v : vec) (j : jaxc) : Prop :=
  forall J e, jacobian L j d = Ok J -> call L j d = Ok e -> vle_by eps (vneg (gained j e)) (mv J v).
Definition holds_by (eps : R) (L : lib) (d : mjdata) (v : vec) (j : jaxc) : Prop :=
  forall J e, jacobian L j d = Ok J -> call L j d = Ok e -> close_by eps (mv J v) (vneg (gained j e)).
Definition nearly (eps : R) (L : lib) (d : mjdata) (pd : jdata) (v : vec) : Prop :=
  List.length v = m_nv (jd_model pd) /\ vle_by eps v (vneg (jd_vmin pd)) /\ vle_by eps (vneg v) (jd_vmax pd) /\
  Forall (fun j => (is_barrier j = true -> cbf_by eps L d v j) /\ (is_hard j = true -> holds_by eps L d v j)) (comps_of pd).

(** Each step applies some velocity that meets the conditions up to [eps], and integrates. *)
Definition near_loop (eps : R) (L : lib) (m : mjmodel) (pd : jdata) (dt : R) (q v : nat -> vec) : Prop :=
  List.length (q 0%nat) = m_nq m /\
  forall k, nearly eps L (update L m (q k)) pd (v k) /\ integrate m (q k) (v k) dt = Ok (q (S k)).

(** In this turn of a control loop the velocity violates no row of the quadratic programme by
    more than [eps]. *)
Definition near_turn (eps : R) (L : lib) (m : mjmodel) (t : vec * jdata * vec) : Prop :=
  let '(q, pd, v) := t in forall Q, assemble L m pd (update L m q) = Ok Q -> residual eps Q v.
(** Barrier gains of at least [g] that do not overshoot, with the default gain function. *)
Definition brisk (g dt : R) (c : comp) : Prop :=
  match a_ext (c_at c) with
  | XBarrier _ _ => (forall x, a_gain_fn (c_at c) x = x) /\ Forall (fun a => g <= a /\ a * dt <= 1) (t_data (a_gain (c_at c)))
  | _ => True
  end.
(** Within limits widened by [w]. *)
Definition within_by (w : R) (lo hi x : vec) : Prop := vle_by w lo x /\ vle_by w x hi.
Definition in_limits_by (w : R) (m : mjmodel) (q : vec) (c : comp) : Prop :=
  match a_ext (c_at c) with
  | XBarrier _ (BJoint j) => within_by w (lower_limits m j) (upper_limits m j) (sel_pos m (jb_final j) q)
  | _ => True
  end.
(** Every hinge and slide is within its range widened by [w]. *)
Definition in_range_by (w : R) (m : mjmodel) (q : vec) : Prop :=
  forall j t, joint_type m j t -> is_scalar t = true -> fst (range_of m j) - w <= nth (qpos_of m j) q 0 <= snd (range_of m j) + w.

(** How much component [j] tells the velocities [v] and [w] apart: squared difference of the
    weighted task velocities, and damping times the squared difference. *)
Inductive apart (L : lib) (d : mjdata) (j : jaxc) (v w : vec) : R -> Prop :=
| apart_task W lm k J e : j_ext j = JTask W lm k -> jacobian L j d = Ok J -> call L j d = Ok e ->
    apart L d j v w (sq (vsub (mv W (mv J v)) (mv W (mv J w))) + lm * sq (mv W (gained j e)) * sq (vsub v w))
| apart_soft a W k J : j_ext j = JConstraint a false W k -> jacobian L j d = Ok J ->
    apart L d j v w (sq (vsub (mv W (mv J v)) (mv W (mv J w))))
| apart_barrier g k J : j_ext j = JBarrier g k -> jacobian L j d = Ok J ->
    apart L d j v w (g / frob2 J * sq (vsub v w))
| apart_hard a W k : j_ext j = JConstraint a true W k -> apart L d j v w 0.

(** Tasks damped by at least [lam]; barriers with a safe displacement gain that is not negative;
    no soft constraints, which have no damping. *)
Definition robust (lam : R) (j : jaxc) : Prop := match j_ext j with JTask _ lm _ => lam <= lm | JBarrier g _ => 0 <= g | JConstraint _ h _ _ => h = true end.
(** A task whose weighted error is not zero. *)
Definition off_target (L : lib) (d : mjdata) (j : jaxc) : Prop :=
  exists W lm k e x, j_ext j = JTask W lm k /\ call L j d = Ok e /\ In x (mv W (gained j e)) /\ x <> 0.
