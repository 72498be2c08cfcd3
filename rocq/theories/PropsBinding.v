(** C16, C17, C22, C23, C26, C27, C30-C32, C35-C37, C40, C54: what binding a model
    does to the components. *)
From Verif Require Import Base Lin Mjx Typing Component SpecComponent SpecJoint SpecHistory SpecTyping SpecCollision Witness
  BindFacts2 CompThms2 BindThms BindThms2 BindCases.
Open Scope nat_scope.

(** ** C16 *)
Theorem C16_joint_task_indices name cost gain gf lm fm c os j : new_joint_task name cost gain gf lm fm = Ok c ->
  Forall sound_op os -> binds_ok os c -> compiles (history os c) j ->
  exists W lm' t q, j_ext j = JTask W lm' (JTJoint t q) /\ joint_indices (j_model j) fm q (j_mask_idxs j) /\
    j_dim j = Z.of_nat (List.length (selected (j_model j) fm)) /\ last_dim t = Ok (List.length (selected (j_model j) fm)).
Proof. exact (joint_task_indices name cost gain gf lm fm c os j). Qed.
Print Assumptions C16_joint_task_indices.
Theorem C16_joint_barrier_indices name gain gf sdg lo hi fm c os j : new_joint_barrier name gain gf sdg lo hi fm = Ok c ->
  Forall sound_op os -> binds_ok os c -> compiles (history os c) j ->
  exists l h q, j_ext j = JBarrier sdg (JBJoint l h q) /\ joint_indices (j_model j) fm q (j_mask_idxs j) /\
    j_dim j = (2 * Z.of_nat (List.length (selected (j_model j) fm)))%Z.
Proof. exact (joint_barrier_indices name gain gf sdg lo hi fm c os j). Qed.
Print Assumptions C16_joint_barrier_indices.
(** A floating base with a hinge, a ball and a slide joint, of which the mask
    keeps only the slide: qpos index 12, dof index 10. *)
Example C16_case : exists c j, new_joint_task "hold" (tscalar 1) (tscalar 1) None 0 (Some [0; 1]%Z) = Ok c /\
  Forall sound_op [OpModel floating] /\ binds_ok [OpModel floating] c /\ compiles (history [OpModel floating] c) j /\
  j_mask_idxs j = [10]%Z.
Proof. exact joint_case. Qed.

(** ** C17 *)
Theorem C17_mask_length_checked m c f : wf_joints m -> user_mask c f -> ~ mask_fits m f -> fst (update_model m c) = Err ValueError.
Proof. exact (mask_length_checked m c f). Qed.
Print Assumptions C17_mask_length_checked.
Theorem C17_task_mask_accepted m c cost lm j : wf_joints m -> a_ext (c_at c) = XTask cost lm (TJoint j) -> mask_fits m (jt_final j) ->
  (fst (update_model m c) = Ok tt <->
     match jt_target j with None => True | Some t => last_dim t = Ok (List.length (selected m (jt_final j))) end).
Proof. exact (task_mask_accepted m c cost lm j). Qed.
Print Assumptions C17_task_mask_accepted.
Theorem C17_barrier_mask_accepted m c s j lo hi : wf_joints m -> a_ext (c_at c) = XBarrier s (BJoint j) -> mask_fits m (jb_final j) ->
  jb_qmin j = Some lo -> jb_qmax j = Some hi -> fst (update_model m c) = Ok tt.
Proof. exact (barrier_mask_accepted m c s j lo hi). Qed.
Print Assumptions C17_barrier_mask_accepted.
Example C17_case : wf_joints arm2 /\ user_mask masked_barrier (Some [1; 0]%Z) /\ mask_fits arm2 (Some [1; 0]%Z) /\ ~ mask_fits arm4 (Some [1; 0]%Z) /\
  fst (update_model arm4 masked_barrier) = Err ValueError.
Proof. exact mask_case. Qed.

(** ** C22 *)
Theorem C22_default_limits name gain gf sdg fm c m : new_joint_barrier name gain gf sdg None None fm = Ok c -> wf_joints m -> mask_fits m fm ->
  List.length (selected m fm) = n_scalar m ->
  fst (update_model m c) = Ok tt /\
  q_limits (snd (update_model m c)) (Some (tvec (map (fun j => fst (range_of m j)) (selected m fm))))
                                    (Some (tvec (map (fun j => snd (range_of m j)) (selected m fm)))).
Proof. exact (default_limits name gain gf sdg fm c m). Qed.
Print Assumptions C22_default_limits.
Theorem C22_explicit_limits_kept c s j lo hi m : a_ext (c_at c) = XBarrier s (BJoint j) -> jb_qmin j = Some lo -> jb_qmax j = Some hi ->
  wf_joints m -> mask_fits m (jb_final j) ->
  fst (update_model m c) = Ok tt /\ q_limits (snd (update_model m c)) (Some lo) (Some hi).
Proof. exact (explicit_limits c s j lo hi m). Qed.
Print Assumptions C22_explicit_limits_kept.
(** Setting limits on a bound barrier controlling [n] joints. *)
Theorem C22_limit_setters t c s j n : a_ext (c_at c) = XBarrier s (BJoint j) -> a_dim (c_at c) = (2 * Z.of_nat n)%Z ->
  (last_dim t = Ok n ->
     fst (update_q_min t c) = Ok tt /\ q_limits (snd (update_q_min t c)) (Some t) (jb_qmax j) /\
     fst (update_q_max t c) = Ok tt /\ q_limits (snd (update_q_max t c)) (jb_qmin j) (Some t)) /\
  (ndim t <> 0 -> last_dim t <> Ok n -> update_q_min t c = (Err ValueError, c) /\ update_q_max t c = (Err ValueError, c)).
Proof. exact (limit_setters t c s j n). Qed.
Print Assumptions C22_limit_setters.
(** Refuted: with a mask that drops a joint, a barrier with default limits
    cannot be bound at all. *)
Theorem C22_masked_default_limits_refuted name gain gf sdg fm c m : new_joint_barrier name gain gf sdg None None fm = Ok c -> wf_joints m -> mask_fits m fm ->
  List.length (selected m fm) <> n_scalar m -> fst (update_model m c) = Err ValueError.
Proof. exact (masked_default_always_raises name gain gf sdg fm c m). Qed.
Print Assumptions C22_masked_default_limits_refuted.
(** Refuted: limits of the wrong length given to the constructor are not rejected. *)
Theorem C22_constructor_limits_unchecked_refuted : exists name gain gf sdg lo hi c m j l h q,
  new_joint_barrier name gain gf sdg (Some lo) (Some hi) None = Ok c /\ wf_joints m /\
  compiles (snd (update_model m c)) j /\ j_ext j = JBarrier sdg (JBJoint l h q) /\
  j_dim j = 4%Z /\ last_dim l = Ok 1 /\ last_dim h = Ok 3.
Proof. exact constructor_limits_unchecked. Qed.
Print Assumptions C22_constructor_limits_unchecked_refuted.
Example C22_case : exists c, new_joint_barrier "limits" (tscalar 1) None 0 None None None = Ok c /\
  wf_joints floating /\ selected floating None = [1; 3] /\ List.length (selected floating None) = n_scalar floating.
Proof. exact default_case. Qed.
Example C22_masked_case : exists name gain gf sdg fm c m,
  new_joint_barrier name gain gf sdg None None (Some fm) = Ok c /\ wf_joints m /\ mask_fits m (Some fm) /\
  selected m (Some fm) <> [] /\ fst (update_model m c) = Err ValueError.
Proof. exact masked_default_raises. Qed.

(** ** C23 *)
Theorem C23_compiled_target_consistent name cost gain gf lm fm c os j : new_joint_task name cost gain gf lm fm = Ok c ->
  Forall sound_op os -> binds_ok os c -> compiles (history os c) j ->
  exists W lm' t q d, j_ext j = JTask W lm' (JTJoint t q) /\ j_dim j = Z.of_nat d /\ last_dim t = Ok d.
Proof. exact (joint_target_consistent name cost gain gf lm fm c os j). Qed.
Print Assumptions C23_compiled_target_consistent.
Theorem C23_default_target name cost gain gf lm fm c m : new_joint_task name cost gain gf lm fm = Ok c -> wf_joints m -> mask_fits m fm ->
  fst (update_model m c) = Ok tt /\ q_target (snd (update_model m c)) (Some (tvec (repeat 0%R (List.length (selected m fm))))).
Proof. exact (default_target name cost gain gf lm fm c m). Qed.
Print Assumptions C23_default_target.
Theorem C23_incompatible_target_at_binding m c cost lm j t : wf_joints m -> a_ext (c_at c) = XTask cost lm (TJoint j) -> jt_target j = Some t -> ndim t <> 0 ->
  last_dim t <> Ok (List.length (selected m (jt_final j))) -> fst (update_model m c) = Err ValueError.
Proof. exact (bad_target_bind m c cost lm j t). Qed.
Print Assumptions C23_incompatible_target_at_binding.
Theorem C23_target_setter name cost gain gf lm fm c os t : new_joint_task name cost gain gf lm fm = Ok c ->
  Forall sound_op os -> binds_ok os c -> a_dim (c_at (history os c)) <> (-1)%Z ->
  exists n, a_dim (c_at (history os c)) = Z.of_nat n /\
  (last_dim t = Ok n -> fst (update_target_q t (history os c)) = Ok tt /\ q_target (snd (update_target_q t (history os c))) (Some t)) /\
  (ndim t <> 0 -> last_dim t <> Ok n -> update_target_q t (history os c) = (Err ValueError, history os c)).
Proof. exact (target_setter name cost gain gf lm fm c os t). Qed.
Print Assumptions C23_target_setter.
(** Refuted when a binding failed before: the task compiles with a target of the
    wrong length. *)
Theorem C23_failed_binding_compiles_refuted : exists name cost gain gf lm c os j W lm' t q,
  new_joint_task name cost gain gf lm None = Ok c /\ Forall sound_op os /\ compiles (history os c) j /\
  j_ext j = JTask W lm' (JTJoint t q) /\ j_dim j = 2%Z /\ last_dim t = Ok 3.
Proof. exact failed_bind_compiles. Qed.
Print Assumptions C23_failed_binding_compiles_refuted.
Example C23_case : exists c j, new_joint_task "hold" (tscalar 1) (tscalar 1) None 0 None = Ok c /\
  let os := [OpTargetQ (tvec [1; 2]%R); OpModel arm2; OpTargetQ (tvec [3; 4]%R)] in
  Forall sound_op os /\ binds_ok os c /\ compiles (history os c) j.
Proof. exact target_case. Qed.

(** ** C26 *)
Theorem C26_object_binding m c o : wf_names m -> object_of (c_at c) = Some o ->
  (fst (update_model m c) = Ok tt <-> exists i, has_object m (ob_type o) (ob_name o) i) /\
  (fst (update_model m c) <> Ok tt -> fst (update_model m c) = Err ValueError) /\
  (forall i, has_object m (ob_type o) (ob_name o) i ->
     object_of (c_at (snd (update_model m c))) = Some (mkO (ob_name o) (ob_type o) i) /\
     a_model (c_at (snd (update_model m c))) = Some m).
Proof. exact (object_binding m c o). Qed.
Print Assumptions C26_object_binding.
Example C26_case : wf_names arm2 /\ object_of (c_at demo_task) = Some (mkO "tip" OBody (-1)) /\ has_object arm2 OBody "tip" 2 /\
  (forall i, ~ has_object (with_names arm2 []) OBody "tip" i).
Proof. exact object_case. Qed.

(** ** C27 *)
(** Refuted: a position task that was bound and then offered a model without its
    object loses the object, yet still compiles (with object id -1). *)
Theorem C27_failed_rebinding_keeps_object_refuted : exists name cost gain on ty gf lm mk c m1 m2 o j1 j2,
  new_position_task name cost gain on ty gf lm mk = Ok c /\ wf_names m1 /\ wf_names m2 /\
  fst (update_model m1 c) = Ok tt /\ object_of (c_at (snd (update_model m1 c))) = Some o /\
  compiles (snd (update_model m1 c)) j1 /\
  fst (update_model m2 (snd (update_model m1 c))) = Err ValueError /\
  object_of (c_at (snd (update_model m2 (snd (update_model m1 c))))) <> Some o /\
  compiles (snd (update_model m2 (snd (update_model m1 c)))) j2 /\ j_model j2 = j_model j1 /\
  (forall W lm' i ty' t, j_ext j2 = JTask W lm' (JTPos i ty' t) -> i = (-1)%Z).
Proof. exact failed_rebind_task. Qed.
Print Assumptions C27_failed_rebinding_keeps_object_refuted.
(** What does survive a failed re-binding. *)
Theorem C27_failed_rebinding_partial m c o : wf_names m -> object_of (c_at c) = Some o -> (forall i, ~ has_object m (ob_type o) (ob_name o) i) ->
  let c' := snd (update_model m c) in
  fst (update_model m c) = Err ValueError /\
  object_of (c_at c') = Some (mkO (ob_name o) (ob_type o) (-1)) /\
  a_model (c_at c') = a_model (c_at c) /\ a_gain (c_at c') = a_gain (c_at c) /\ a_dim (c_at c') = a_dim (c_at c) /\
  fst (mask c') = fst (mask c) /\ fst (mask_idxs c') = fst (mask_idxs c).
Proof. exact (failed_rebind m c o). Qed.
Print Assumptions C27_failed_rebinding_partial.
(** A position barrier at least refuses to compile afterwards. *)
Theorem C27_failed_rebinding_of_barrier_partial m c o : wf_names m -> object_of (c_at c) = Some o -> (forall i, ~ has_object m (ob_type o) (ob_name o) i) ->
  reachable c -> (exists s p, a_ext (c_at c) = XBarrier s (BPos p)) -> forall j, ~ compiles (snd (update_model m c)) j.
Proof. exact (failed_rebind_barrier m c o). Qed.
Print Assumptions C27_failed_rebinding_of_barrier_partial.
Example C27_case : exists c, new_position_barrier "wall" (tscalar 1) "tip" OBody None None "max" None 0 None = Ok c /\
  object_of (c_at (history [OpModel arm2] c)) = Some (mkO "tip" OBody 2) /\ reachable (history [OpModel arm2] c) /\
  (exists j, compiles (history [OpModel arm2] c) j) /\ wf_names (with_names arm2 []).
Proof. exact wall_case. Qed.

(** ** C30 *)
Theorem C30_limit_updates name gain on ty lo hi lts gf sdg mk c os t : new_position_barrier name gain on ty lo hi lts gf sdg mk = Ok c ->
  Forall api_op os -> wf_tensor t ->
  let c' := history os c in let n := n_axes mk in
  exists lt l h, from_str lts = Ok lt /\ p_limits c' l h /\
  (forall t', limit_value n t t' ->
     fst (update_p_min t c') = Ok tt /\
     (if includes_min lt then p_limits (snd (update_p_min t c')) t' h else snd (update_p_min t c') = c') /\
     fst (update_p_max t c') = Ok tt /\
     (if includes_max lt then p_limits (snd (update_p_max t c')) l t' else snd (update_p_max t c') = c')) /\
  (ndim t <> 0 -> last_dim t <> Ok n -> update_p_min t c' = (Err ValueError, c') /\ update_p_max t c' = (Err ValueError, c')).
Proof. exact (limit_updates name gain on ty lo hi lts gf sdg mk c os t). Qed.
Print Assumptions C30_limit_updates.
Theorem C30_stored_limits_have_one_entry_per_axis name gain on ty lo hi lts gf sdg mk c os :
  new_position_barrier name gain on ty lo hi lts gf sdg mk = Ok c ->
  Forall api_op os -> exists l h, p_limits (history os c) l h /\ last_dim l = Ok (n_axes mk) /\ last_dim h = Ok (n_axes mk).
Proof. exact (stored_limits_shape name gain on ty lo hi lts gf sdg mk c os). Qed.
Print Assumptions C30_stored_limits_have_one_entry_per_axis.
Example C30_case : exists c, new_position_barrier "wall" (tscalar 1) "tip" OBody None (Some (tscalar 2)) "max" None 0 (Some (mvec [1; 0; 1]%Z)) = Ok c /\
  n_axes (Some (mvec [1; 0; 1]%Z)) = 2 /\ p_limits c (tvec [0; 0]%R) (tvec [2; 2]%R) /\
  snd (update_p_min (tscalar 1) c) = c /\ p_limits (snd (update_p_max (tvec [5; 6]%R) c)) (tvec [0; 0]%R) (tvec [5; 6]%R).
Proof. exact limits_case. Qed.

(** ** C31 *)
Theorem C31_limit_type_parsing s :
  (from_str s = Ok LMin <-> same_word s "min") /\ (from_str s = Ok LMax <-> same_word s "max") /\
  (from_str s = Ok LBoth <-> same_word s "both") /\
  (~ same_word s "min" -> ~ same_word s "max" -> ~ same_word s "both" -> from_str s = Err ValueError).
Proof. exact (parse_limit_type s). Qed.
Print Assumptions C31_limit_type_parsing.
Theorem C31_includes t : (includes_min t = true <-> t = LMin \/ t = LBoth) /\ (includes_max t = true <-> t = LMax \/ t = LBoth).
Proof. exact (includes_spec t). Qed.
Print Assumptions C31_includes.
Example C31_case : same_word "BoTH" "both" /\ ~ same_word "botha" "both" /\ ~ same_word "b0th" "both".
Proof. exact words_case. Qed.

(** ** C32 *)
Theorem C32_frame_target c t0 : frame_target c t0 ->
  (forall t, fst (update_target_frame (FSE3 t) c) = Ok tt /\ frame_target (snd (update_target_frame (FSE3 t) c)) t) /\
  (forall t rows, last_dim t = Ok 7 ->
     t_data t = flat_map (fun r => match r with (x, y, z, (qw, qx, qy, qz)) => [x; y; z; qw; qx; qy; qz] end) rows ->
     fst (update_target_frame (FArr t) c) = Ok tt /\
     frame_target (snd (update_target_frame (FArr t) c))
       (mkT (t_shape t) (flat_map (fun r => match r with (x, y, z, (qw, qx, qy, qz)) => stored_frame x y z qw qx qy qz end) rows))) /\
  (forall t, ndim t <> 0 -> last_dim t <> Ok 7 -> update_target_frame (FArr t) c = (Err ValueError, c)).
Proof. exact (frame_setter c t0). Qed.
Print Assumptions C32_frame_target.
(** Every frame task, after any API calls, holds a target, so the theorem above applies. *)
Theorem C32_every_frame_task_has_a_target name cost gain on ty gf lm mk c os : new_frame_task name cost gain on ty gf lm mk = Ok c ->
  Forall api_op os -> exists t, frame_target (history os c) t.
Proof. exact (frame_history name cost gain on ty gf lm mk c os). Qed.
Print Assumptions C32_every_frame_task_has_a_target.
Example C32_case : exists c, new_frame_task "pose" (tscalar 1) (tscalar 1) "tip" OBody None 0 None = Ok c /\
  frame_target c (tvec [1; 0; 0; 0; 0; 0; 0]%R) /\
  frame_target (snd (update_target_frame (FArr (tvec [1; 2; 3; 0; 1; 0; 0]%R)) c)) (tvec [0; 1; 0; 0; 1; 2; 3]%R).
Proof. exact frame_case. Qed.

(** ** C35 *)
Theorem C35_pairs_sound_and_complete name gain gf sdg dm bs er n c os m ids ex :
  new_self_collision name gain gf sdg dm bs er n = Ok c -> bs <> [] -> Forall api_op os ->
  wf_bodies m -> wf_names m -> Forall2 (refers m) bs ids -> Forall2 (refers2 m) er ex ->
  exists ps, fst (update_model m (history os c)) = Ok tt /\ checks (snd (update_model m (history os c))) ps /\ checks_exactly m ids ex ps.
Proof. exact (pairs_sound_complete name gain gf sdg dm bs er n c os m ids ex). Qed.
Print Assumptions C35_pairs_sound_and_complete.
(** Without a body list, the first binding checks the pairs of all bodies. *)
Theorem C35_default_bodies name gain gf sdg dm er n c os m ex :
  new_self_collision name gain gf sdg dm [] er n = Ok c -> Forall no_bind os ->
  wf_bodies m -> wf_names m -> Forall2 (refers2 m) er ex ->
  exists ps, fst (update_model m (history os c)) = Ok tt /\ checks (snd (update_model m (history os c))) ps /\
    checks_exactly m (all_bodies m) ex ps /\ (n = (-1)%Z -> a_dim (c_at (snd (update_model m (history os c)))) = Z.of_nat (List.length ps)).
Proof. exact (default_pairs name gain gf sdg dm er n c os m ex). Qed.
Print Assumptions C35_default_bodies.
Example C35_case : exists c, new_self_collision "self" (tscalar 1) None 0 0 [CBInt 1; CBInt 2; CBStr "tip"; CBInt 1]%string [(CBStr "tip", CBInt 1)]%string (-1) = Ok c /\
  wf_bodies arm4 /\ wf_names arm4 /\ Forall2 (refers arm4) [CBInt 1; CBInt 2; CBStr "tip"; CBInt 1]%string [1; 2; 4; 1]%Z /\
  Forall2 (refers2 arm4) [(CBStr "tip", CBInt 1)]%string [(4, 1)]%Z /\ checks (snd (update_model arm4 c)) [(1, 3)]%Z.
Proof. exact pairs_case. Qed.

(** ** C36 *)
Theorem C36_order_irrelevant m name gain gf sdg dm bs er n c os name' gain' gf' sdg' dm' bs' er' n' c' os' ids ids' ex ex' ps ps' :
  new_self_collision name gain gf sdg dm bs er n = Ok c -> bs <> [] -> Forall api_op os ->
  new_self_collision name' gain' gf' sdg' dm' bs' er' n' = Ok c' -> bs' <> [] -> Forall api_op os' ->
  wf_bodies m -> wf_names m ->
  Forall2 (refers m) bs ids -> Forall2 (refers2 m) er ex -> Forall2 (refers m) bs' ids' -> Forall2 (refers2 m) er' ex' ->
  (forall b, In b ids <-> In b ids') -> same_excl ex ex' ->
  checks (snd (update_model m (history os c))) ps -> checks (snd (update_model m (history os' c'))) ps' ->
  forall p, In p ps <-> In p ps'.
Proof. exact (order_irrelevant_barriers m name gain gf sdg dm bs er n c os name' gain' gf' sdg' dm' bs' er' n' c' os' ids ids' ex ex' ps ps'). Qed.
Print Assumptions C36_order_irrelevant.
Example C36_case : exists c c', new_self_collision "a" (tscalar 1) None 0 0 [CBInt 1; CBInt 2; CBInt 3; CBInt 4] [(CBInt 1, CBInt 4)] (-1) = Ok c /\
  new_self_collision "b" (tscalar 1) None 0 0 [CBStr "tip"; CBInt 3; CBInt 1; CBInt 2; CBInt 3]%string [(CBStr "tip", CBInt 1)]%string (-1) = Ok c' /\
  checks (snd (update_model arm4 c)) [(0, 2); (1, 3)]%Z /\ checks (snd (update_model arm4 c')) [(1, 3); (0, 2)]%Z.
Proof. exact order_case. Qed.

(** ** C37 *)
(** Refuted: a misspelled body name silently stands for the last body. *)
Theorem C37_unknown_listed_body_refuted : exists name gain gf sdg dm bs n c m s g1 g2 ps,
  new_self_collision name gain gf sdg dm bs [] n = Ok c /\ wf_bodies m /\ wf_names m /\ In (CBStr s) bs /\
  (forall i, ~ has_object m OBody s i) /\ fst (update_model m c) = Ok tt /\ checks (snd (update_model m c)) ps /\
  In (g1, g2) ps /\
  ent (m_geom_bodyid m) g2 = (Z.of_nat (m_nbody m) - 1)%Z /\ ~ In (CBInt (ent (m_geom_bodyid m) g2)) bs.
Proof. exact unknown_body_listed. Qed.
Print Assumptions C37_unknown_listed_body_refuted.
Theorem C37_unknown_excluded_body_refuted : exists name gain gf sdg dm bs s n c m ps,
  new_self_collision name gain gf sdg dm bs [(CBInt 1, CBStr s)] n = Ok c /\ wf_bodies m /\ wf_names m /\
  (forall i, ~ has_object m OBody s i) /\ fst (update_model m c) = Ok tt /\ checks (snd (update_model m c)) ps.
Proof. exact unknown_body_excluded. Qed.
Print Assumptions C37_unknown_excluded_body_refuted.

(** ** C40 *)
(** Refuted: bound to a two-link arm and then to a four-link arm, a default
    barrier checks nothing although the four-link arm has pairs to check. *)
Theorem C40_rebinding_adapts_refuted : exists name gain gf sdg dm c m1 m2 ps g1 g2,
  new_self_collision name gain gf sdg dm [] [] (-1) = Ok c /\ wf_bodies m1 /\ wf_names m1 /\ wf_bodies m2 /\ wf_names m2 /\
  fst (update_model m1 c) = Ok tt /\ fst (update_model m2 (snd (update_model m1 c))) = Ok tt /\
  checks (snd (update_model m2 (snd (update_model m1 c)))) ps /\
  to_check m2 (all_bodies m2) [] g1 g2 /\ (g1 < g2)%Z /\ ps = [] /\
  a_dim (c_at (snd (update_model m2 (snd (update_model m1 c))))) = 0%Z.
Proof. exact rebind_keeps_old_bodies. Qed.
Print Assumptions C40_rebinding_adapts_refuted.

(** ** C54 (the compiled rows are treated with the constraint values) *)
Theorem C54_equality_dimension name gain hard soft c os m : new_model_equality name gain hard soft = Ok c -> Forall api_op os ->
  List.length (m_eq_type m) = m_neq m ->
  (Forall eq_supported (m_eq_type m) ->
     fst (update_model m (history os c)) = Ok tt /\
     a_dim (c_at (snd (update_model m (history os c)))) = Z.of_nat (fold_right (fun t k => eq_rows t + k) 0 (m_eq_type m))) /\
  (~ Forall eq_supported (m_eq_type m) -> fst (update_model m (history os c)) = Err ValueError).
Proof. exact (equality_dimension name gain hard soft c os m). Qed.
Print Assumptions C54_equality_dimension.
Example C54_case : exists c, new_model_equality "eq" (tscalar 100) false None = Ok c /\
  let m := with_eq arm2 [EqConnect; EqJoint; EqWeld] in
  List.length (m_eq_type m) = m_neq m /\ Forall eq_supported (m_eq_type m) /\ a_dim (c_at (snd (update_model m c))) = 10%Z /\
  ~ Forall eq_supported [EqConnect; EqOther 7].
Proof. exact equality_case. Qed.
