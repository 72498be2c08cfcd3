(** C01-C07: components, their caches, gains, costs and masks. *)
From Verif Require Import Base Lin Mjx Typing Component SpecComponent SpecJoint SpecHistory Witness CompThms CompThms2.
Open Scope nat_scope.

(** ** C01 *)
(** After any history (constructor, then any calls, failing ones included), a read
    of [jax_component] gives what a build from the current attributes gives. *)
Theorem C01_compiled_component_never_stale c0 os : constructed c0 ->
  fst (jax_component (history os c0)) = fst (jax_component (scratch (history os c0))).
Proof. exact (never_stale c0 os). Qed.
Print Assumptions C01_compiled_component_never_stale.
(** A task bound, read, retargeted and read again really serves the new target. *)
Example C01_case : constructed demo_task /\
  exists j1 j2, fst (jax_component (history demo_ops demo_task)) = Ok j1 /\
    fst (jax_component (history (demo_ops ++ [OpTargetPos (tvec [1; 2; 3]%R)]) demo_task)) = Ok j2 /\ j1 <> j2 /\
    c_modified (history demo_ops demo_task) = false.
Proof. exact demo_fresh. Qed.

(** ** C02 *)
Theorem C02_read_has_no_visible_effect c : reachable c ->
  fst (jax_component (snd (jax_component c))) = fst (jax_component c) /\
  same_public c (snd (jax_component c)) /\
  (is_ok (fst (jax_component c)) = false -> c_modified (snd (jax_component c)) = true) /\
  (forall o, In o [OpReadMask; OpReadMaskIdxs; OpReadJax] ->
     same_public c (after o c) /\ fst (jax_component (after o c)) = fst (jax_component c)).
Proof. exact (reads_have_no_effect c). Qed.
Print Assumptions C02_read_has_no_visible_effect.
(** A reachable component whose read succeeds, and one whose read raises. *)
Example C02_case : reachable (history demo_ops demo_task) /\ is_ok (fst (jax_component (history demo_ops demo_task))) = true /\
  reachable demo_task /\ is_ok (fst (jax_component demo_task)) = false.
Proof. exact demo_reads. Qed.

(** ** C03 *)
Theorem C03_availability c : reachable c ->
  (forall j, compiles c j <-> published c j) /\
  (a_model (c_at c) = None \/ a_dim (c_at c) = (-1)%Z -> fst (jax_component c) = Err ValueError).
Proof. exact (availability_full c). Qed.
Print Assumptions C03_availability.
(** Through the documented API the only exception is ValueError. *)
Theorem C03_only_value_error c0 os e : constructed c0 -> wf_arrays (c_at c0) -> Forall wf_call os ->
  fst (jax_component (history os c0)) = Err e -> e = ValueError.
Proof. exact (only_value_error c0 os e). Qed.
Print Assumptions C03_only_value_error.
Example C03_case : reachable (history demo_ops demo_task) /\ (exists j, published (history demo_ops demo_task) j) /\
  constructed demo_task /\ wf_arrays (c_at demo_task) /\ Forall wf_call demo_ops /\
  fst (jax_component (history [OpGain (tvec [1; 2]%R)] (history demo_ops demo_task))) = Err ValueError.
Proof. exact demo_available. Qed.

(** ** C04 *)
Theorem C04_vector_gain a d : a_dim a = Z.of_nat d -> wf_tensor (a_gain a) ->
  (forall v, vector_gain a = Ok v <-> gain_means (a_gain a) d v) /\
  (forall e, vector_gain a = Err e -> e = ValueError).
Proof. exact (vector_gain_full a d). Qed.
Print Assumptions C04_vector_gain.
Theorem C04_vector_gain_needs_dimension a : a_dim a = (-1)%Z -> vector_gain a = Err ValueError.
Proof. exact (vector_gain_unknown a). Qed.
Print Assumptions C04_vector_gain_needs_dimension.
(** A rank above one is rejected and nothing at all changes; otherwise exactly the
    gain changes.  Hence no API history stores a gain of rank above one. *)
Theorem C04_gain_setter t c :
  (1 < ndim t -> update_gain t c = (Err ValueError, c)) /\
  (ndim t <= 1 -> fst (update_gain t c) = Ok tt /\ c_at (snd (update_gain t c)) = set_a_gain (c_at c) t).
Proof. exact (gain_setter_at t c). Qed.
Print Assumptions C04_gain_setter.
Theorem C04_gain_rank_invariant c os : constructed c -> Forall api_op os -> ndim (a_gain (c_at (history os c))) <= 1.
Proof. exact (gain_rank c os). Qed.
Print Assumptions C04_gain_rank_invariant.
Example C04_case :
  a_dim (c_at demo_task) = Z.of_nat 3 /\ wf_tensor (a_gain (c_at demo_task)) /\
  vector_gain (c_at demo_task) = Ok [2; 2; 2]%R /\
  vector_gain (c_at (history [OpGain (tvec [4; 5; 6]%R)] demo_task)) = Ok [4; 5; 6]%R /\
  vector_gain (c_at (history [OpGain (tvec [4; 5]%R)] demo_task)) = Err ValueError /\
  ndim (mkT [1; 1] [7%R]) = 2.
Proof. exact demo_gain. Qed.

(** ** C05 *)
Theorem C05_matrix_cost a cost lm k : a_ext a = XTask cost lm k -> wf_tensor cost ->
  (forall d W, a_dim a = Z.of_nat d -> (matrix_cost a = Ok W <-> cost_means cost d W)) /\
  (forall e, matrix_cost a = Err e -> e = ValueError) /\
  (a_dim a = (-1)%Z -> matrix_cost a = Err ValueError).
Proof. exact (matrix_cost_full a cost lm k). Qed.
Print Assumptions C05_matrix_cost.
Theorem C05_cost_setter t c cost lm k : a_ext (c_at c) = XTask cost lm k ->
  (2 < ndim t -> update_cost t c = (Err ValueError, c)) /\
  (ndim t <= 2 -> fst (update_cost t c) = Ok tt /\ c_at (snd (update_cost t c)) = set_a_ext (c_at c) (XTask t lm k)).
Proof. exact (cost_setter_at t c cost lm k). Qed.
Print Assumptions C05_cost_setter.
Theorem C05_weighting_is_entrywise W t d e : cost_means t d W -> List.length e = d ->
  (forall x, t = mkT [] [x] -> mv W e = map (Rmult x) e) /\
  (wf_tensor t -> t_shape t = [d] -> mv W e = vmul (t_data t) e).
Proof. exact (weighting W t d e). Qed.
Print Assumptions C05_weighting_is_entrywise.
Example C05_case :
  (exists lm k, a_ext (c_at demo_task) = XTask (tvec [1; 2; 3]%R) lm k) /\ wf_tensor (tvec [1; 2; 3]%R) /\
  matrix_cost (c_at demo_task) = Ok [[1; 0; 0]; [0; 2; 0]; [0; 0; 3]]%R /\
  matrix_cost (c_at (history [OpCost (mkT [2; 2] [1; 2; 3; 4]%R)] demo_task)) = Err ValueError /\
  cost_means (tvec [5; 7]%R) 2 [[5; 0]; [0; 7]]%R.
Proof. exact demo_cost. Qed.

(** ** C06 *)
Theorem C06_soft_constraint_cost a act hard soft k :
  a_ext a = XConstraint act hard soft k -> (forall t, soft = Some t -> wf_tensor t) -> (-1 <= a_dim a)%Z ->
  (forall d W, a_dim a = Z.of_nat d ->
     (soft_constraint_cost a = Ok W <-> cost_means (match soft with Some t => t | None => tscalar 100 end) d W)) /\
  (forall e, soft_constraint_cost a = Err e -> e = ValueError) /\
  (a_dim a = (-1)%Z -> soft_constraint_cost a = Err ValueError).
Proof. exact (soft_cost_full a act hard soft k). Qed.
Print Assumptions C06_soft_constraint_cost.
Example C06_case :
  (exists act h k, a_ext (c_at demo_constraint) = XConstraint act h None k) /\ a_dim (c_at demo_constraint) = Z.of_nat 2 /\
  soft_constraint_cost (c_at demo_constraint) = Ok [[100; 0]; [0; 100]]%R.
Proof. exact demo_soft. Qed.

(** ** C07 *)
(** Explicit mask, after any API history. *)
Theorem C07_explicit_mask k d c os : takes_mask (Some k) d c -> Forall api_op os ->
  fst (mask (history os c)) = Ok (mk_data k) /\
  exists idx, fst (mask_idxs (history os c)) = Ok idx /\ selects (mk_data k) idx /\
    List.length idx = List.length (filter (fun x => negb (x =? 0)%Z) (mk_data k)).
Proof. exact (mask_explicit k d c os). Qed.
Print Assumptions C07_explicit_mask.
(** No mask, dimension fixed at construction. *)
Theorem C07_default_mask d c os : takes_mask None d c -> Forall api_op os ->
  a_dim (c_at (history os c)) = Z.of_nat d /\
  fst (mask_idxs (history os c)) = Ok (map Z.of_nat (seq 0 d)) /\
  fst (mask (history os c)) = Ok (repeat 1%Z d).
Proof. exact (mask_default d c os). Qed.
Print Assumptions C07_default_mask.
(** No mask, dimension known after binding (self-collision, model equality). *)
Theorem C07_default_mask_of_late_dimension c0 c d os :
  (exists name gain gf sdg dm bs ex n, new_self_collision name gain gf sdg dm bs ex n = Ok c0) \/
  (exists name gain h s, new_model_equality name gain h s = Ok c0) ->
  Forall api_op os -> c = history os c0 -> a_dim (c_at c) = Z.of_nat d ->
  fst (mask_idxs c) = Ok (map Z.of_nat (seq 0 d)).
Proof. exact (late_default c0 c d os). Qed.
Print Assumptions C07_default_mask_of_late_dimension.
Theorem C07_mask_rank_rejected k d c : List.length (mk_shape k) <> 1 -> ~ takes_mask (Some k) d c.
Proof. exact (mask_rank_rejected k d c). Qed.
Print Assumptions C07_mask_rank_rejected.
Theorem C07_mask_unavailable_iff c : (-1 <= a_dim (c_at c))%Z ->
  ((exists e, fst (mask_idxs c) = Err e) <-> (a_mask (c_at c) = None /\ a_dim (c_at c) = (-1)%Z)).
Proof. exact (mask_unavailable c). Qed.
Print Assumptions C07_mask_unavailable_iff.
Example C07_case :
  takes_mask (Some (mvec [1; 0; 1]%Z)) 3 masked_task /\ fst (mask_idxs masked_task) = Ok [0; 2]%Z /\
  takes_mask None 3 demo_task /\ fst (mask_idxs demo_task) = Ok [0; 1; 2]%Z /\
  new_model_equality "eq" (tscalar 1) true None = Ok demo_equality /\
  a_dim (c_at (history [OpModel (with_eq arm2 [EqConnect; EqJoint])] demo_equality)) = Z.of_nat 4 /\
  fst (mask_idxs demo_equality) = Err ValueError.
Proof. exact demo_masks. Qed.

(** ** C75 *)
(** Whenever a joint component has been bound successfully, [mask_idxs] enumerates
    the non-zero entries of [mask]. *)
Theorem C75_masks_agree_after_joint_binding_partial m c c' : wf_joints m -> joint_component c -> bound_to m c c' ->
  exists mk idx, fst (mask c') = Ok mk /\ fst (mask_idxs c') = Ok idx /\ selects mk idx.
Proof. exact (joint_masks_agree m c c'). Qed.
Print Assumptions C75_masks_agree_after_joint_binding_partial.
Example C75_case : wf_joints arm4 /\ joint_component demo_joint /\ bound_to arm4 demo_joint (history [OpModel arm4] demo_joint) /\
  fst (mask_idxs (history [OpModel arm4] demo_joint)) = Ok [0; 2]%Z.
Proof. exact demo_joint_bound. Qed.
(** In general they do not agree: re-binding an equality constraint to another
    model refreshes [mask_idxs] but not the [mask] that was read before. *)
Theorem C75_masks_agree_refuted : exists c os mk idx, constructed c /\ Forall api_op os /\ binds_ok os c /\
  fst (mask (history os c)) = Ok mk /\ fst (mask_idxs (history os c)) = Ok idx /\ ~ selects mk idx.
Proof. exact masks_disagree. Qed.
Print Assumptions C75_masks_agree_refuted.
