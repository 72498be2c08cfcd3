(** C43-C53: the quadratic programme of the local IK solver. *)
From Verif Require Import Base Lin Mjx Typing Component Problem SpecComponent SpecProblem JaxComponents LocalIK GlobalIK SpecQP QPThms QPThms2 QPThms3 QPThms4 QPThms5 QPCases.
From Coq Require Import Permutation.
Open Scope R_scope.

(** A concrete problem for all theorems below: two hinges, one joint equality; a
    damped posture task, joint limits, a hard and a soft model equality. *)
Example local_case : forall L, compiled_by qp_prog 0 qp_demo /\ Forall legal qp_prog /\ Forall wf_wop qp_prog /\
  m_nv arm2e = m_nv (jd_model qp_demo) /\
  map is_barrier (comps_of qp_demo) = [false; true; false; false] /\ map is_hard (comps_of qp_demo) = [false; false; true; false] /\
  Forall (well_shaped L (m_nv (jd_model qp_demo)) qp_data) (comps_of qp_demo) /\
  Forall (fits L (m_nv (jd_model qp_demo)) qp_data) (comps_of qp_demo) /\
  Forall nonneg_weights (comps_of qp_demo) /\
  List.length (jd_vmin qp_demo) = m_nv (jd_model qp_demo) /\ List.length (jd_vmax qp_demo) = m_nv (jd_model qp_demo) /\
  exists Q, assemble L arm2e qp_demo qp_data = Ok Q.
Proof.
  intros L. destruct qp_demo_compiled as (A & B & C), qp_demo_kinds as [D E], qp_demo_limits as [F G].
  exact (conj A (conj B (conj C (conj qp_demo_nv (conj D (conj E (conj (qp_demo_shaped L) (conj (qp_demo_fits L) (conj qp_demo_nonneg (conj F (conj G (qp_demo_assembles L)))))))))))).
Qed.

(** ** C43 *)
Theorem C43_objective_is_weighted_least_squares L sm pd d Q :
  m_nv sm = m_nv (jd_model pd) -> assemble L sm pd d = Ok Q ->
  Forall (well_shaped L (m_nv (jd_model pd)) d) (comps_of pd) ->
  exists k0, forall v, List.length v = m_nv (jd_model pd) ->
    exists x, total_cost L d (comps_of pd) v x /\ objective Q v = x - k0.
Proof. exact (objective_is_cost L sm pd d Q). Qed.
Print Assumptions C43_objective_is_weighted_least_squares.
Theorem C43_cost_is_determined L d js v x y : total_cost L d js v x -> total_cost L d js v y -> x = y.
Proof. exact (total_cost_fun L d js v x y). Qed.
Print Assumptions C43_cost_is_determined.

(** ** C44 *)
Theorem C44_hessian_symmetric_psd L sm pd d Q :
  m_nv sm = m_nv (jd_model pd) -> assemble L sm pd d = Ok Q ->
  let n := m_nv (jd_model pd) in
  is_mat n n (qp_P Q) /\
  (forall i k, (i < n)%nat -> (k < n)%nat -> nth k (nth i (qp_P Q) []) 0 = nth i (nth k (qp_P Q) []) 0) /\
  (Forall nonneg_weights (comps_of pd) -> forall v, List.length v = n -> 0 <= dot v (mv (qp_P Q) v)).
Proof. exact (hessian_convex L sm pd d Q). Qed.
Print Assumptions C44_hessian_symmetric_psd.
Theorem C44_constructors_reject_negative_damping name cost gain gf lm mk jmk on ty d f : lm < 0 ->
  (exists e, new_com_task name cost gain gf lm mk = Err e) /\
  new_position_task name cost gain on ty gf lm mk = Err ValueError /\
  new_frame_task name cost gain on ty gf lm mk = Err ValueError /\
  new_joint_task name cost gain gf lm jmk = Err ValueError /\
  new_custom_task name cost gain gf lm mk d f = Err ValueError.
Proof. exact (reject_damping name cost gain gf lm mk jmk on ty d f). Qed.
Print Assumptions C44_constructors_reject_negative_damping.
(** No sequence of API calls on a constructed task makes the damping negative
    (only a direct assignment to the attribute does). *)
Theorem C44_damping_stays_nonnegative c os j W lm k : constructed c -> Forall api_op os ->
  fst (jax_component (history os c)) = Ok j -> j_ext j = JTask W lm k -> 0 <= lm.
Proof. exact (compiled_damping c os j W lm k). Qed.
Print Assumptions C44_damping_stays_nonnegative.

(** ** C45 *)
(** Layout: the two velocity-limit blocks, then one block -J per barrier in
    component order, with the gained barrier values on the right. *)
Theorem C45_barrier_row_layout L sm pd d Q :
  m_nv sm = m_nv (jd_model pd) -> assemble L sm pd d = Ok Q ->
  Forall (well_shaped L (m_nv (jd_model pd)) d) (comps_of pd) ->
  let n := m_nv (jd_model pd) in let bars := filter is_barrier (comps_of pd) in
  exists Js es, data_of L d bars Js es /\
    qp_G Q = eye n ++ mneg (eye n) ++ List.concat (map mneg Js) /\
    qp_h Q = vneg (jd_vmin pd) ++ jd_vmax pd ++ List.concat (map (fun p => gained (fst p) (snd p)) (combine bars es)).
Proof. exact (ineq_blocks L sm pd d Q). Qed.
Print Assumptions C45_barrier_row_layout.
Theorem C45_rows_encode_cbf L sm pd d Q :
  m_nv sm = m_nv (jd_model pd) -> assemble L sm pd d = Ok Q ->
  Forall (well_shaped L (m_nv (jd_model pd)) d) (comps_of pd) ->
  forall v, List.length v = m_nv (jd_model pd) ->
  List.length (jd_vmin pd) = m_nv (jd_model pd) -> List.length (jd_vmax pd) = m_nv (jd_model pd) ->
  satisfies_ineq (qp_G Q) (qp_h Q) v <->
    vle v (vneg (jd_vmin pd)) /\ vle (vneg v) (jd_vmax pd) /\ Forall (cbf L d v) (filter is_barrier (comps_of pd)).
Proof. exact (ineq_iff L sm pd d Q). Qed.
Print Assumptions C45_rows_encode_cbf.

(** ** C46 *)
(** The limits enter with swapped signs: in a problem with v_min = (-1,-1) and
    v_max = (2,3) the QP accepts a velocity below v_min and rejects one inside. *)
Theorem C46_velocity_limits_refuted : exists os pi pd, compiled_by os pi pd /\ Forall legal os /\ Forall wf_wop os /\
  forall L d, exists Q v w, assemble L (jd_model pd) pd d = Ok Q /\
    List.length v = m_nv (jd_model pd) /\ satisfies_ineq (qp_G Q) (qp_h Q) v /\ ~ vle (jd_vmin pd) v /\
    List.length w = m_nv (jd_model pd) /\ vle (jd_vmin pd) w /\ vle w (jd_vmax pd) /\ ~ satisfies_ineq (qp_G Q) (qp_h Q) w.
Proof. exact limits_violated. Qed.
Print Assumptions C46_velocity_limits_refuted.
(** What holds: the claim for symmetric limits v_max = -v_min. *)
Theorem C46_symmetric_velocity_limits_partial L sm pd d Q :
  m_nv sm = m_nv (jd_model pd) -> assemble L sm pd d = Ok Q ->
  Forall (well_shaped L (m_nv (jd_model pd)) d) (comps_of pd) ->
  List.length (jd_vmin pd) = m_nv (jd_model pd) -> jd_vmax pd = vneg (jd_vmin pd) ->
  forall v, List.length v = m_nv (jd_model pd) ->
    (satisfies_ineq (qp_G Q) (qp_h Q) v -> vle (jd_vmin pd) v /\ vle v (jd_vmax pd)) /\
    (filter is_barrier (comps_of pd) = [] -> vle (jd_vmin pd) v -> vle v (jd_vmax pd) -> satisfies_ineq (qp_G Q) (qp_h Q) v).
Proof. exact (limits_sym L sm pd d Q). Qed.
Print Assumptions C46_symmetric_velocity_limits_partial.
Example C46_case : forall L, exists os pi pd Q, compiled_by os pi pd /\ Forall legal os /\ m_nv (jd_model pd) = 1%nat /\
  assemble L (jd_model pd) pd (dat [1 / 2] [] [] []) = Ok Q /\ jd_vmax pd = vneg (jd_vmin pd) /\ jd_vmin pd = [-1] /\
  Forall (well_shaped L (m_nv (jd_model pd)) (dat [1 / 2] [] [] [])) (comps_of pd).
Proof. exact symmetric_case. Qed.

(** ** C47 *)
Theorem C47_equality_row_layout L sm pd d Q :
  m_nv sm = m_nv (jd_model pd) -> assemble L sm pd d = Ok Q ->
  Forall (well_shaped L (m_nv (jd_model pd)) d) (comps_of pd) ->
  let hard := filter is_hard (comps_of pd) in
  exists Js es, data_of L d hard Js es /\
  qp_eq Q = match hard with [] => None | _ =>
    Some (List.concat Js, List.concat (map (fun p => vneg (gained (fst p) (snd p))) (combine hard es))) end.
Proof. exact (eq_blocks L sm pd d Q). Qed.
Print Assumptions C47_equality_row_layout.
Theorem C47_rows_encode_constraints L sm pd d Q :
  m_nv sm = m_nv (jd_model pd) -> assemble L sm pd d = Ok Q ->
  Forall (well_shaped L (m_nv (jd_model pd)) d) (comps_of pd) ->
  forall v, satisfies_eq (qp_eq Q) v <-> Forall (holds_exactly L d v) (filter is_hard (comps_of pd)).
Proof. exact (eq_iff L sm pd d Q). Qed.
Print Assumptions C47_rows_encode_constraints.
Theorem C47_no_rows_without_hard_constraint L sm pd d Q :
  m_nv sm = m_nv (jd_model pd) -> assemble L sm pd d = Ok Q ->
  Forall (well_shaped L (m_nv (jd_model pd)) d) (comps_of pd) ->
  qp_eq Q = None <-> filter is_hard (comps_of pd) = [].
Proof. exact (eq_none L sm pd d Q). Qed.
Print Assumptions C47_no_rows_without_hard_constraint.

(** ** C48 *)
(** A hard constraint that was set inactive still excludes velocities that are
    feasible when it is taken out of the problem. *)
Theorem C48_inactive_constraint_refuted : exists os pi pd, compiled_by os pi pd /\ Forall legal os /\
  (exists j W k, comps_of pd = [j] /\ j_ext j = JConstraint false true W k) /\
  forall L, exists Q Q' d v, assemble L (jd_model pd) pd d = Ok Q /\ assemble L (jd_model pd) (mkJD (jd_model pd) (jd_vmin pd) (jd_vmax pd) []) d = Ok Q' /\
    List.length v = m_nv (jd_model pd) /\ satisfies_eq (qp_eq Q') v /\ ~ satisfies_eq (qp_eq Q) v.
Proof. exact inactive_matters. Qed.
Print Assumptions C48_inactive_constraint_refuted.
(** In general the flag has no influence at all. *)
Theorem C48_active_flag_is_ignored L sm pd d f :
  assemble L sm (mkJD (jd_model pd) (jd_vmin pd) (jd_vmax pd) (map (fun p => (fst p, with_active f (snd p))) (jd_comps pd))) d = assemble L sm pd d.
Proof. exact (active_ignored L sm pd d f). Qed.
Print Assumptions C48_active_flag_is_ignored.

(** ** C49 *)
Theorem C49_component_order_is_irrelevant L sm pd pd' d Q :
  m_nv sm = m_nv (jd_model pd) -> jd_model pd' = jd_model pd -> jd_vmin pd' = jd_vmin pd -> jd_vmax pd' = jd_vmax pd ->
  List.length (jd_vmin pd) = m_nv (jd_model pd) -> List.length (jd_vmax pd) = m_nv (jd_model pd) ->
  Permutation (comps_of pd) (comps_of pd') -> Forall (well_shaped L (m_nv (jd_model pd)) d) (comps_of pd) ->
  assemble L sm pd d = Ok Q -> exists Q', assemble L sm pd' d = Ok Q' /\ qp_P Q' = qp_P Q /\ qp_c Q' = qp_c Q /\
    Permutation (row_pairs (qp_G Q) (qp_h Q)) (row_pairs (qp_G Q') (qp_h Q')) /\ Permutation (eq_rows (qp_eq Q)) (eq_rows (qp_eq Q')) /\
    forall v, optimal (m_nv (jd_model pd)) Q v <-> optimal (m_nv (jd_model pd)) Q' v.
Proof. exact (perm_optimal L sm pd pd' d Q). Qed.
Print Assumptions C49_component_order_is_irrelevant.

(** ** C50 *)
(** Joint limits on no joint give a barrier of dimension zero; its Jacobian norm
    is zero and the division by it makes the Hessian NaN, for every data. *)
Theorem C50_finite_data_refuted : exists os pi pd, compiled_by os pi pd /\ Forall legal os /\ Forall wf_wop os /\
  forall L d, Forall (fits L (m_nv (jd_model pd)) d) (comps_of pd) /\ assemble L (jd_model pd) pd d = Err NonFinite.
Proof. exact not_finite. Qed.
Print Assumptions C50_finite_data_refuted.
(** What holds: the data are finite exactly when no barrier Jacobian is zero. *)
Theorem C50_finite_iff_partial L sm pd d :
  m_nv sm = m_nv (jd_model pd) -> Forall (fits L (m_nv (jd_model pd)) d) (comps_of pd) ->
  ((exists Q, assemble L sm pd d = Ok Q) <->
   forall j J, In j (comps_of pd) -> is_barrier j = true -> jacobian L j d = Ok J -> frob2 J <> 0).
Proof. exact (assemble_finite L sm pd d). Qed.
Print Assumptions C50_finite_iff_partial.

(** ** C51 *)
Theorem C51_solve_checks_shape L So sm q v_prev pd :
  (t_shape q <> [m_nq sm] -> solve L So sm q v_prev pd = Err ValueError) /\
  (t_shape q = [m_nq sm] -> solve L So sm q v_prev pd =
     match assemble L sm pd (update L sm (t_data q)) with Ok Q => Ok (So Q, sol_primal (So Q)) | Err e => Err e end).
Proof. exact (solve_shape L So sm q v_prev pd). Qed.
Print Assumptions C51_solve_checks_shape.
(** A correctly shaped q raises nothing. *)
Theorem C51_solve_succeeds L So sm q v_prev pd : m_nv sm = m_nv (jd_model pd) -> t_shape q = [m_nq sm] ->
  let d := update L sm (t_data q) in
  Forall (fits L (m_nv (jd_model pd)) d) (comps_of pd) ->
  (forall j J, In j (comps_of pd) -> is_barrier j = true -> jacobian L j d = Ok J -> frob2 J <> 0) ->
  exists Q, assemble L sm pd d = Ok Q /\ solve L So sm q v_prev pd = Ok (So Q, sol_primal (So Q)).
Proof. exact (solve_fits L So sm q v_prev pd). Qed.
Print Assumptions C51_solve_succeeds.
Theorem C51_init_checks_shape sm t : init sm None = Ok (vzero (m_nv sm)) /\
  (t_shape t = [m_nv sm] -> init sm (Some t) = Ok (t_data t)) /\ (t_shape t <> [m_nv sm] -> init sm (Some t) = Err ValueError).
Proof. exact (init_shape sm t). Qed.
Print Assumptions C51_init_checks_shape.
Theorem C51_global_checks_shape L g O sm dt q st pd :
  (t_shape q = [m_nq sm] -> ginit O sm q = Ok (o_init O (t_data q))) /\
  (t_shape q <> [m_nq sm] -> ginit O sm q = Err ValueError /\ gsolve L g O sm dt q st pd = Err ValueError).
Proof. exact (global_shape L g O sm dt q st pd). Qed.
Print Assumptions C51_global_checks_shape.

(** ** C52 *)
Theorem C52_kkt_points_are_optimal L sm pd d Q :
  m_nv sm = m_nv (jd_model pd) -> assemble L sm pd d = Ok Q ->
  forall v y z, Forall nonneg_weights (comps_of pd) -> kkt (m_nv (jd_model pd)) Q v y z -> optimal (m_nv (jd_model pd)) Q v.
Proof. exact (kkt_minimises L sm pd d Q). Qed.
Print Assumptions C52_kkt_points_are_optimal.
(** ... also in terms of the documented cost. *)
Theorem C52_optimal_minimises_cost L sm pd d Q :
  m_nv sm = m_nv (jd_model pd) -> assemble L sm pd d = Ok Q ->
  forall v, Forall (well_shaped L (m_nv (jd_model pd)) d) (comps_of pd) -> optimal (m_nv (jd_model pd)) Q v ->
  forall x, total_cost L d (comps_of pd) v x ->
  forall w y, List.length w = m_nv (jd_model pd) -> feasible Q w -> total_cost L d (comps_of pd) w y -> x <= y.
Proof. exact (optimal_cost L sm pd d Q). Qed.
Print Assumptions C52_optimal_minimises_cost.
Theorem C52_rest_at_target L sm pd d Q :
  m_nv sm = m_nv (jd_model pd) -> assemble L sm pd d = Ok Q ->
  forall v x, Forall (well_shaped L (m_nv (jd_model pd)) d) (comps_of pd) -> Forall nonneg_weights (comps_of pd) -> Forall (at_rest L d) (comps_of pd) ->
  feasible Q (vzero (m_nv (jd_model pd))) -> optimal (m_nv (jd_model pd)) Q v -> total_cost L d (comps_of pd) v x ->
  x = 0 /\ total_cost L d (comps_of pd) (vzero (m_nv (jd_model pd))) 0.
Proof. exact (optimal_at_rest L sm pd d Q). Qed.
Print Assumptions C52_rest_at_target.
Example C52_case : forall L, compiled_by one_prog 0 one_pd /\ Forall legal one_prog /\ Forall nonneg_weights (comps_of one_pd) /\
  Forall (well_shaped L (m_nv (jd_model one_pd)) (dat [1 / 2] [] [] [])) (comps_of one_pd) /\
  exists Q, assemble L one one_pd (dat [1 / 2] [] [] []) = Ok Q /\ kkt 1 Q [- (1 / 2)] [] [0; 0].
Proof. exact one_case. Qed.
Example C52_rest_case : forall L,
  Forall (well_shaped L (m_nv (jd_model one_pd)) (dat [0] [] [] [])) (comps_of one_pd) /\ Forall (at_rest L (dat [0] [] [] [])) (comps_of one_pd) /\
  exists Q, assemble L one one_pd (dat [0] [] [] []) = Ok Q /\ feasible Q (vzero 1) /\ optimal 1 Q [0].
Proof. exact rest_case. Qed.

(** ** C53 *)
Theorem C53_equality_decay L sm pd j dt (ds : nat -> mjdata) (vs : nat -> vec) (Qs : nat -> qp) (es : nat -> vec) :
  m_nv sm = m_nv (jd_model pd) -> In j (comps_of pd) -> is_hard j = true -> (forall x, j_gain_fn j x = x) ->
  (forall k, assemble L sm pd (ds k) = Ok (Qs k) /\ Forall (well_shaped L (m_nv (jd_model pd)) (ds k)) (comps_of pd) /\
             satisfies_eq (qp_eq (Qs k)) (vs k) /\ call L j (ds k) = Ok (es k) /\
             exists J, jacobian L j (ds k) = Ok J /\ es (S k) = vadd (es k) (vscale dt (mv J (vs k)))) ->
  forall n, es n = vmul (map (fun g => (1 - g * dt) ^ n) (j_gain j)) (es 0%nat).
Proof. exact (constraint_decay L sm pd j dt ds vs Qs es). Qed.
Print Assumptions C53_equality_decay.
Example C53_case : forall L, compiled_by dec_prog 0 dec_pd /\ Forall legal dec_prog /\
  exists j, comps_of dec_pd = [j] /\ is_hard j = true /\ (forall x, j_gain_fn j x = x) /\ j_gain j = [1 / 2] /\
  forall k, exists Q, assemble L onee dec_pd (dec_d k) = Ok Q /\ Forall (well_shaped L (m_nv (jd_model dec_pd)) (dec_d k)) (comps_of dec_pd) /\
     satisfies_eq (qp_eq Q) [- (1 / 2 * dec_e k)] /\ call L j (dec_d k) = Ok [dec_e k] /\
     exists J, jacobian L j (dec_d k) = Ok J /\ [dec_e (S k)] = vadd [dec_e k] (vscale 1 (mv J [- (1 / 2 * dec_e k)])).
Proof. exact decay_case. Qed.
