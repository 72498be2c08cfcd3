{
 "claims": [
  {
   "property": "C01",
   "status": "proved",
   "theorems": [
    "C01_compiled_component_never_stale"
   ],
   "note": ""
  },
  {
   "property": "C02",
   "status": "proved",
   "theorems": [
    "C02_read_has_no_visible_effect"
   ],
   "note": ""
  },
  {
   "property": "C03",
   "status": "proved",
   "theorems": [
    "C03_availability",
    "C03_only_value_error"
   ],
   "note": ""
  },
  {
   "property": "C04",
   "status": "proved",
   "theorems": [
    "C04_vector_gain",
    "C04_vector_gain_needs_dimension",
    "C04_gain_setter",
    "C04_gain_rank_invariant"
   ],
   "note": ""
  },
  {
   "property": "C05",
   "status": "proved",
   "theorems": [
    "C05_matrix_cost",
    "C05_cost_setter",
    "C05_weighting_is_entrywise"
   ],
   "note": ""
  },
  {
   "property": "C06",
   "status": "proved",
   "theorems": [
    "C06_soft_constraint_cost"
   ],
   "note": ""
  },
  {
   "property": "C07",
   "status": "proved",
   "theorems": [
    "C07_explicit_mask",
    "C07_default_mask",
    "C07_default_mask_of_late_dimension",
    "C07_mask_rank_rejected",
    "C07_mask_unavailable_iff"
   ],
   "note": ""
  },
  {
   "property": "C08",
   "status": "proved",
   "theorems": [
    "C08_updates",
    "C08_accepted",
    "C08_originals_unchanged",
    "C08_result_is_new",
    "C08_commute",
    "C08_overwrite",
    "C08_components_are_objects",
    "C08_set_gain",
    "C08_set_target"
   ],
   "note": ""
  },
  {
   "property": "C09",
   "status": "proved",
   "theorems": [
    "C09_problem_is_an_ordered_map",
    "C09_duplicate_name_rejected",
    "C09_remove"
   ],
   "note": ""
  },
  {
   "property": "C10",
   "status": "proved",
   "theorems": [
    "C10_failed_add_leaves_problem",
    "C10_add_outcome"
   ],
   "note": ""
  },
  {
   "property": "C11",
   "status": "proved",
   "theorems": [
    "C11_typed_lookup"
   ],
   "note": ""
  },
  {
   "property": "C12",
   "status": "proved",
   "theorems": [
    "C12_limits_have_length_nv",
    "C12_limit_update",
    "C12_initial_limits",
    "C12_default_limits"
   ],
   "note": ""
  },
  {
   "property": "C13",
   "status": "proved",
   "theorems": [
    "C13_compile_is_a_snapshot"
   ],
   "note": ""
  },
  {
   "property": "C14",
   "status": "partial",
   "theorems": [
    "C14_sharing_is_safe_refuted",
    "C14_failed_add_redirects_object_refuted",
    "C14_other_components_partial",
    "C14_one_model_partial"
   ],
   "note": "False of the code as stated: a failed or repeated binding of a shared component changes what another problem compiles; a position task loses its object and still compiles with object -1. The theorems without the suffix _refuted give what holds."
  },
  {
   "property": "C15",
   "status": "partial",
   "theorems": [
    "C15_outcome",
    "C15_structure",
    "C15_components",
    "C15_axes_affect_only_those_leaves",
    "C15_any_place_can_be_set",
    "C15_order_refuted"
   ],
   "note": "False of the code as stated: the vmap template lists components by name, not in insertion order. The theorems without the suffix _refuted give what holds."
  },
  {
   "property": "C16",
   "status": "proved",
   "theorems": [
    "C16_joint_task_indices",
    "C16_joint_barrier_indices"
   ],
   "note": ""
  },
  {
   "property": "C17",
   "status": "proved",
   "theorems": [
    "C17_mask_length_checked",
    "C17_task_mask_accepted",
    "C17_barrier_mask_accepted"
   ],
   "note": ""
  },
  {
   "property": "C18",
   "status": "proved",
   "theorems": [
    "C18_joint_task_value_and_jacobian"
   ],
   "note": ""
  },
  {
   "property": "C19",
   "status": "proved",
   "theorems": [
    "C19_joint_barrier_value_and_jacobian"
   ],
   "note": ""
  },
  {
   "property": "C20",
   "status": "proved",
   "theorems": [
    "C20_joint_limits_of_programs",
    "C20_joint_limits_are_invariant"
   ],
   "note": ""
  },
  {
   "property": "C21",
   "status": "proved",
   "theorems": [
    "C21_joint_task_error_decays",
    "C21_joint_task_converges",
    "C21_loops_exist",
    "C21_optimum_drives_task"
   ],
   "note": ""
  },
  {
   "property": "C22",
   "status": "partial",
   "theorems": [
    "C22_default_limits",
    "C22_explicit_limits_kept",
    "C22_limit_setters",
    "C22_masked_default_limits_refuted",
    "C22_constructor_limits_unchecked_refuted",
    "C22_default_limits_iff"
   ],
   "note": "False of the code as stated: a joint barrier with a mask cannot be bound with default limits; limits of the wrong length given to the constructor are accepted. The theorems without the suffix _refuted give what holds. Exactly when default limits work: C22_default_limits_iff."
  },
  {
   "property": "C23",
   "status": "partial",
   "theorems": [
    "C23_compiled_target_consistent",
    "C23_default_target",
    "C23_incompatible_target_at_binding",
    "C23_target_setter",
    "C23_failed_binding_compiles_refuted"
   ],
   "note": "False of the code as stated: after a failed binding a joint task compiles with a target of the wrong length. The theorems without the suffix _refuted give what holds."
  },
  {
   "property": "C24",
   "status": "proved",
   "theorems": [
    "C24_component_shapes",
    "C24_program_shapes",
    "C24_solver_never_fails_on_shapes"
   ],
   "note": ""
  },
  {
   "property": "C25",
   "status": "partial",
   "theorems": [
    "C25_short_masks_partial",
    "C25_short_frame_masks_partial",
    "C25_com_masks_checked",
    "C25_long_position_mask_refuted",
    "C25_long_barrier_mask_refuted",
    "C25_long_frame_mask_refuted"
   ],
   "note": "False of the code as stated: masks longer than the quantity they select from are accepted and read an entry that was not selected (clamped index). The theorems without the suffix _refuted give what holds. Exactly when it holds: C25_position_task_harmless_iff, C25_position_barrier_harmless_iff."
  },
  {
   "property": "C26",
   "status": "proved",
   "theorems": [
    "C26_object_binding",
    "C26_reads_named_object"
   ],
   "note": ""
  },
  {
   "property": "C27",
   "status": "partial",
   "theorems": [
    "C27_failed_rebinding_keeps_object_refuted",
    "C27_failed_rebinding_partial",
    "C27_failed_rebinding_of_barrier_partial",
    "C27_keeps_object_iff",
    "C27_task_compiles_without_object"
   ],
   "note": "False of the code as stated: a failed or repeated binding of a shared component changes what another problem compiles; a position task loses its object and still compiles with object -1. The theorems without the suffix _refuted give what holds. Exactly what happens: C27_keeps_object_iff, C27_task_compiles_without_object."
  },
  {
   "property": "C28",
   "status": "proved",
   "theorems": [
    "C28_position_error",
    "C28_com_error",
    "C28_target_setters"
   ],
   "note": ""
  },
  {
   "property": "C29",
   "status": "proved",
   "theorems": [
    "C29_position_barrier"
   ],
   "note": ""
  },
  {
   "property": "C30",
   "status": "proved",
   "theorems": [
    "C30_limit_updates",
    "C30_stored_limits_have_one_entry_per_axis"
   ],
   "note": ""
  },
  {
   "property": "C31",
   "status": "proved",
   "theorems": [
    "C31_limit_type_parsing",
    "C31_includes"
   ],
   "note": ""
  },
  {
   "property": "C32",
   "status": "proved",
   "theorems": [
    "C32_frame_target",
    "C32_every_frame_task_has_a_target"
   ],
   "note": ""
  },
  {
   "property": "C33",
   "status": "partial",
   "theorems": [
    "C33_size_is_invariant",
    "C33_sign_matters_iff",
    "C33_frame_error",
    "C33_rigid_motion_partial",
    "C33_half_turn_refuted"
   ],
   "note": "False of the code as stated: at a half turn the frame error depends on the sign of the target quaternion. The theorems without the suffix _refuted give what holds."
  },
  {
   "property": "C34",
   "status": "partial",
   "theorems": [
    "C34_right_iff",
    "C34_unrotated_partial",
    "C34_defect_refuted",
    "C34_crank_refuted"
   ],
   "note": "False of the code as stated: `_obj_frame_task.py:87` uses `target^-1 frame^-1` instead of `target^-1 frame`; for unrotated frames the reported rate is off by the cross product of position and angular velocity. The theorems without the suffix _refuted give what holds. C34_right_iff says exactly which entries are right for unrotated frames."
  },
  {
   "property": "C35",
   "status": "proved",
   "theorems": [
    "C35_pairs_sound_and_complete",
    "C35_default_bodies"
   ],
   "note": ""
  },
  {
   "property": "C36",
   "status": "proved",
   "theorems": [
    "C36_order_irrelevant"
   ],
   "note": ""
  },
  {
   "property": "C37",
   "status": "partial",
   "theorems": [
    "C37_unknown_listed_body_refuted",
    "C37_unknown_excluded_body_refuted",
    "C37_references_as_numbers_partial",
    "C37_out_of_range_raises_partial",
    "C37_not_a_reference_raises_partial",
    "C37_excluded_not_a_reference_raises_partial"
   ],
   "note": "False of the code as stated: an unknown body name silently stands for the last body (id -1). The theorems without the suffix _refuted give what holds."
  },
  {
   "property": "C38",
   "status": "partial",
   "theorems": [
    "C38_value_is_the_n_smallest_distances",
    "C38_nonnegative_iff_all_clear",
    "C38_requested_number",
    "C38_minus_one_means_all_pairs_partial",
    "C38_minus_one_after_second_binding_refuted",
    "C38_minus_one_is_settled_by_the_first_model"
   ],
   "note": "False of the code as stated: a self-collision barrier keeps the number and the list of pairs of the first model it was bound to. The theorems without the suffix _refuted give what holds."
  },
  {
   "property": "C39",
   "status": "partial",
   "theorems": [
    "C39_rows_belong_to_their_contacts_partial",
    "C39_swapped_geoms_refuted",
    "C39_reordered_contacts_refuted",
    "C39_several_contacts_per_pair_refuted",
    "C39_no_pairs_refuted",
    "C39_rows_exact",
    "C39_right_if_bodies_agree"
   ],
   "note": "False of the code as stated: rows of the self-collision Jacobian use the bodies of another pair when contacts are reordered, geoms are swapped or a pair has several contacts; without pairs the Jacobian raises. The theorems without the suffix _refuted give what holds. C39_rows_exact says for any list of pairs which bodies a row uses; C39_right_if_bodies_agree when that is right."
  },
  {
   "property": "C40",
   "status": "partial",
   "theorems": [
    "C40_rebinding_adapts_refuted",
    "C40_default_adapts_iff",
    "C40_fewer_bodies_raise",
    "C40_listed_bodies_adapt_partial",
    "C40_default_bodies_frozen_partial"
   ],
   "note": "False of the code as stated: a self-collision barrier created without a body list keeps the body ids and the number of rows of the first model it was bound to. The theorems without the suffix _refuted give what holds."
  },
  {
   "property": "C41",
   "status": "proved",
   "theorems": [
    "C41_grouping_is_a_partition"
   ],
   "note": ""
  },
  {
   "property": "C42",
   "status": "proved",
   "theorems": [
    "C42_contacts_stay_attached",
    "C42_one_distance_per_pair",
    "C42_height_fields_refused"
   ],
   "note": ""
  },
  {
   "property": "C43",
   "status": "proved",
   "theorems": [
    "C43_objective_is_weighted_least_squares",
    "C43_cost_is_determined"
   ],
   "note": ""
  },
  {
   "property": "C44",
   "status": "proved",
   "theorems": [
    "C44_hessian_symmetric_psd",
    "C44_constructors_reject_negative_damping",
    "C44_damping_stays_nonnegative"
   ],
   "note": ""
  },
  {
   "property": "C45",
   "status": "proved",
   "theorems": [
    "C45_barrier_row_layout",
    "C45_rows_encode_cbf"
   ],
   "note": ""
  },
  {
   "property": "C46",
   "status": "partial",
   "theorems": [
    "C46_velocity_limits_refuted",
    "C46_symmetric_velocity_limits_partial"
   ],
   "note": "False of the code as stated: `_local_ik.py:303-304` pairs `v <= -v_min` and `-v <= v_max`; right only for symmetric limits. The theorems without the suffix _refuted give what holds. Exactly when it holds: C46_enforced_iff_symmetric."
  },
  {
   "property": "C47",
   "status": "proved",
   "theorems": [
    "C47_equality_row_layout",
    "C47_rows_encode_constraints",
    "C47_no_rows_without_hard_constraint"
   ],
   "note": ""
  },
  {
   "property": "C48",
   "status": "partial",
   "theorems": [
    "C48_inactive_constraint_refuted",
    "C48_active_flag_is_ignored"
   ],
   "note": "False of the code as stated: the `active` flag of constraints is never read. The theorems without the suffix _refuted give what holds."
  },
  {
   "property": "C49",
   "status": "proved",
   "theorems": [
    "C49_component_order_is_irrelevant"
   ],
   "note": ""
  },
  {
   "property": "C50",
   "status": "partial",
   "theorems": [
    "C50_finite_data_refuted",
    "C50_finite_iff_partial"
   ],
   "note": "False of the code as stated: a barrier with a zero Jacobian makes the objective NaN. The theorems without the suffix _refuted give what holds."
  },
  {
   "property": "C51",
   "status": "proved",
   "theorems": [
    "C51_solve_checks_shape",
    "C51_solve_succeeds",
    "C51_init_checks_shape",
    "C51_global_checks_shape"
   ],
   "note": ""
  },
  {
   "property": "C52",
   "status": "proved",
   "theorems": [
    "C52_kkt_points_are_optimal",
    "C52_optimal_minimises_cost",
    "C52_rest_at_target"
   ],
   "note": ""
  },
  {
   "property": "C53",
   "status": "proved",
   "theorems": [
    "C53_equality_decay"
   ],
   "note": ""
  },
  {
   "property": "C54",
   "status": "proved",
   "theorems": [
    "C54_equality_dimension",
    "C54_equality_rows"
   ],
   "note": ""
  },
  {
   "property": "C55",
   "status": "proved",
   "theorems": [
    "C55_loss_is_the_sum_of_contributions",
    "C55_programs_have_a_loss",
    "C55_loss_nonneg",
    "C55_loss_zero_iff",
    "C55_barrier_antitone",
    "C55_constraints_rejected"
   ],
   "note": ""
  },
  {
   "property": "C56",
   "status": "partial",
   "theorems": [
    "C56_costs_and_gain_functions_ignored_refuted",
    "C56_gains_are_weights_partial"
   ],
   "note": "False of the code as stated: the global solver ignores costs, damping and gain functions; its barrier penalty is bounded and flat outside the limits. The theorems without the suffix _refuted give what holds."
  },
  {
   "property": "C57",
   "status": "partial",
   "theorems": [
    "C57_penalty_between_partial",
    "C57_penalty_bounded_refuted",
    "C57_penalty_flat_refuted",
    "C57_no_push_back_refuted",
    "C57_minimum_outside_limits_refuted"
   ],
   "note": "False of the code as stated: the global solver ignores costs, damping and gain functions; its barrier penalty is bounded and flat outside the limits. The theorems without the suffix _refuted give what holds."
  },
  {
   "property": "C58",
   "status": "partial",
   "theorems": [
    "C58_velocity_length_iff",
    "C58_solution_consistent_partial",
    "C58_wrong_shape_rejected",
    "C58_velocity_has_length_nq_refuted",
    "C58_unit_quaternion_lost_refuted",
    "C58_from_data",
    "C58_from_data_configuration_only",
    "C58_from_data_wrong_length",
    "C58_local_from_data"
   ],
   "note": "False of the code as stated: the global velocity has nq entries; quaternions lose unit norm. The theorems without the suffix _refuted give what holds. Exactly when the length is right: C58_velocity_length_iff."
  },
  {
   "property": "C59",
   "status": "partial",
   "theorems": [
    "C59_joint_zero",
    "C59_no_joints_refuted",
    "C59_defined_iff"
   ],
   "note": "False of the code as stated: `joint_zero` raises on a model without joints. The theorems without the suffix _refuted give what holds. Exactly when it raises: C59_defined_iff."
  },
  {
   "property": "C60",
   "status": "partial",
   "theorems": [
    "C60_joint_difference_partial",
    "C60_quaternion_part_leads_from_q1_to_q2",
    "C60_same_orientation_refuted",
    "C60_right_iff"
   ],
   "note": "False of the code as stated: on ball and free joints the difference leads from q1 to q2, on hinges and slides from q2 to q1. The theorems without the suffix _refuted give what holds. C60_right_iff: integrating the difference from q2 reaches q1's orientation only where the two already agree."
  },
  {
   "property": "C61",
   "status": "partial",
   "theorems": [
    "C61_rate_matrix_partial",
    "C61_true_rate_partial",
    "C61_scale_refuted",
    "C61_right_iff"
   ],
   "note": "False of the code as stated: the rate matrix of quaternion joints is twice too large. The theorems without the suffix _refuted give what holds. C61_right_iff: the matrix is right exactly for velocities that turn no ball or free joint."
  },
  {
   "property": "C62",
   "status": "proved",
   "theorems": [
    "C62_skew_matrix",
    "C62_attitude_jacobian"
   ],
   "note": ""
  },
  {
   "property": "C63",
   "status": "proved",
   "theorems": [
    "C63_support_and_value",
    "C63_local_is_rotated",
    "C63_rigid_body_velocities"
   ],
   "note": ""
  },
  {
   "property": "C64",
   "status": "partial",
   "theorems": [
    "C64_relative_transform_refuted",
    "C64_transform_from_world_partial"
   ],
   "note": "False of the code as stated: `get_transform` multiplies the two world poses instead of inverting one. The theorems without the suffix _refuted give what holds. Exactly when it holds: C64_right_iff."
  },
  {
   "property": "C65",
   "status": "proved",
   "theorems": [
    "C65_integration",
    "C65_zero_velocity_is_identity"
   ],
   "note": ""
  },
  {
   "property": "C66",
   "status": "partial",
   "theorems": [
    "C66_configuration_limit_partial",
    "C66_integer_limit_refuted",
    "C66_usable_iff"
   ],
   "note": "False of the code as stated: an integer (not float) limit is not broadcast and the call raises. The theorems without the suffix _refuted give what holds. Exactly which limits work: C66_usable_iff."
  },
  {
   "property": "C67",
   "status": "proved",
   "theorems": [
    "C67_subtree_centre_of_mass",
    "C67_subtrees_can_be_listed_and_root_covers_all"
   ],
   "note": ""
  },
  {
   "property": "C68",
   "status": "proved",
   "theorems": [
    "C68_numbering",
    "C68_stored",
    "C68_names_added",
    "C68_rejected_call_changes_nothing",
    "C68_drawn"
   ],
   "note": ""
  },
  {
   "property": "C69",
   "status": "partial",
   "theorems": [
    "C69_exact_colours",
    "C69_order_right_iff",
    "C69_convex_partial",
    "C69_order_refuted",
    "C69_single_refuted",
    "C69_one_colour"
   ],
   "note": "False of the code as stated: marker colours run from `color_end` to `color_begin`. The theorems without the suffix _refuted give what holds. Exact colours: C69_exact_colours; the order is right only for equal colours: C69_order_right_iff."
  },
  {
   "property": "C70",
   "status": "proved",
   "theorems": [
    "C70_quaternion",
    "C70_shapes"
   ],
   "note": ""
  },
  {
   "property": "C71",
   "status": "proved",
   "theorems": [
    "C71_hoist",
    "C71_no_worldbody",
    "C71_file_names",
    "C71_name_without_hash",
    "C71_name_without_extension",
    "C71_plain_name"
   ],
   "note": "File names without a hash are mangled (part.stl becomes part.st.stl): C71_name_without_hash."
  },
  {
   "property": "C72",
   "status": "partial",
   "theorems": [
    "C72_faded_once_iff",
    "C72_kept",
    "C72_faded_once_partial",
    "C72_shared_class_refuted",
    "C72_materials"
   ],
   "note": "False of the code as stated: geoms sharing a default class fade repeatedly. The theorems without the suffix _refuted give what holds. Exactly when a geom fades once: C72_faded_once_iff."
  },
  {
   "property": "C73",
   "status": "partial",
   "theorems": [
    "C73_geoms_replaced_refuted",
    "C73_without_markers_partial"
   ],
   "note": "False of the code as stated: in recorded frames markers replace geoms of the model. The theorems without the suffix _refuted give what holds."
  },
  {
   "property": "C74",
   "status": "partial",
   "theorems": [
    "C74_import_refuted",
    "C74_construct_refuted",
    "C74_update_ignores_q_refuted"
   ],
   "note": "False of the code as stated: the legacy module cannot be imported; its constructor is misspelled; its update ignores q. The theorems without the suffix _refuted give what holds."
  },
  {
   "property": "C75",
   "status": "partial",
   "theorems": [
    "C75_masks_agree_after_joint_binding_partial",
    "C75_masks_agree_refuted",
    "C75_all_but_equality_partial",
    "C75_equality_agrees_iff",
    "C75_available_together"
   ],
   "note": "False of the code as stated: re-binding an equality constraint refreshes `mask_idxs` but not `mask`. The theorems without the suffix _refuted give what holds. C75_all_but_equality_partial proves it for every other component; C75_equality_agrees_iff says exactly when it holds for equality constraints."
  },
  {
   "property": "C76",
   "status": "partial",
   "theorems": [
    "C76_scalar_joints",
    "C76_motion_partial",
    "C76_position_components_qualify",
    "C76_com_tasks_qualify",
    "C76_turning_doubled_refuted",
    "C76_ball_joint_refuted",
    "C76_custom_com_zero_refuted",
    "C76_custom_task_refuted",
    "C76_right_iff"
   ],
   "note": "False of the code as stated: automatic Jacobians are twice too large on ball and free joints and zero for custom tasks on the centre of mass. The theorems without the suffix _refuted give what holds. C76_right_iff: right exactly for entries that do not react to the turning part of the velocity."
  },
  {
   "property": "C77",
   "status": "proved",
   "theorems": [
    "C77_jit_sorts",
    "C77_local",
    "C77_global",
    "C77_global_any_order"
   ],
   "note": ""
  },
  {
   "property": "C78",
   "status": "partial",
   "theorems": [
    "C78_first_file",
    "C78_right_iff",
    "C78_accepted_iff",
    "C78_supplied_partial",
    "C78_same_name_refuted"
   ],
   "note": "False of the code as stated: assets with the same file name in different directories are confused. The theorems without the suffix _refuted give what holds. Which file is read: C78_first_file; exactly when it is the right one: C78_right_iff; exactly which documents are accepted: C78_accepted_iff."
  },
  {
   "property": "C79",
   "status": "proved",
   "theorems": [
    "C79_one_frame_per_update",
    "C79_frames_only_added",
    "C79_not_recording",
    "C79_after_close"
   ],
   "note": ""
  },
  {
   "property": "C80",
   "status": "proved",
   "theorems": [
    "C80_rows",
    "C80_joint_order",
    "C80_prefixes_distinct"
   ],
   "note": ""
  },
  {
   "property": "C81",
   "status": "proved",
   "theorems": [
    "C81_com_task_starts",
    "C81_position_task_starts",
    "C81_frame_task_starts",
    "C81_joint_task_starts",
    "C81_position_barrier_starts",
    "C81_joint_barrier_starts",
    "C81_self_collision_starts",
    "C81_equality_starts",
    "C81_custom_task_starts",
    "C81_custom_barrier_starts",
    "C81_custom_constraint_starts",
    "C81_gain",
    "C81_cost",
    "C81_target",
    "C81_position_limits",
    "C81_joint_limits",
    "C81_fixed_settings",
    "C81_compiled_settings",
    "C81_compiled_target",
    "C81_compiled_position_limits",
    "C81_compiled_joint_limits",
    "C81_compiled_class"
   ],
   "note": ""
  },
  {
   "property": "C82",
   "status": "proved",
   "theorems": [
    "C82_lanes",
    "C82_rows",
    "C82_lane_is_one_problem"
   ],
   "note": ""
  },
  {
   "property": "C83",
   "status": "proved",
   "theorems": [
    "C83_minimiser_is_best",
    "C83_solution_exists",
    "C83_solve_returns_best",
    "C83_better_than_standing_still"
   ],
   "note": ""
  },
  {
   "property": "C84",
   "status": "proved",
   "theorems": [
    "C84_unique",
    "C84_pinning_is_needed"
   ],
   "note": ""
  },
  {
   "property": "C85",
   "status": "proved",
   "theorems": [
    "C85_scaling",
    "C85_task_costs"
   ],
   "note": ""
  },
  {
   "property": "C86",
   "status": "proved",
   "theorems": [
    "C86_zero_cost_is_removal",
    "C86_weightless"
   ],
   "note": ""
  },
  {
   "property": "C87",
   "status": "proved",
   "theorems": [
    "C87_one_step",
    "C87_posture_loop",
    "C87_gain_bound_is_needed"
   ],
   "note": ""
  },
  {
   "property": "C88",
   "status": "proved",
   "theorems": [
    "C88_error_never_grows",
    "C88_joint_tasks_qualify",
    "C88_joint_limits_qualify",
    "C88_automatic_jacobians_qualify"
   ],
   "note": ""
  },
  {
   "property": "C89",
   "status": "proved",
   "theorems": [
    "C89_barriers_hold",
    "C89_hard_constraints_decay"
   ],
   "note": ""
  },
  {
   "property": "C90",
   "status": "proved",
   "theorems": [
    "C90_masked_value",
    "C90_masked_jacobian",
    "C90_masked_jacobian_automatic",
    "C90_same_cost",
    "C90_same_best_velocities"
   ],
   "note": ""
  },
  {
   "property": "C91",
   "status": "proved",
   "theorems": [
    "C91_component_traced_once",
    "C91_problem_traced_once"
   ],
   "note": ""
  },
  {
   "property": "C92",
   "status": "proved",
   "theorems": [
    "C92_usable_iff_suits",
    "C92_compile_iff_complete",
    "C92_setup_succeeds_iff",
    "C92_setup_result",
    "C92_compile_after_settings",
    "C92_control_loop_compiles",
    "C92_control_loop_solves",
    "C92_local_ik_program",
    "C92_readme_loop_never_fails"
   ],
   "note": ""
  },
  {
   "property": "C93",
   "status": "proved",
   "theorems": [
    "C93_batches_compile",
    "C93_lanes_solve",
    "C93_pose_stacks_accepted",
    "C93_vmapped_readme_loop"
   ],
   "note": ""
  },
  {
   "property": "C94",
   "status": "proved",
   "theorems": [
    "C94_loop_never_fails",
    "C94_loop_stays_within_limits",
    "C94_readme_loop"
   ],
   "note": ""
  },
  {
   "property": "C95",
   "status": "proved",
   "theorems": [
    "C95_global_loop_never_fails",
    "C95_constraint_stops_the_loop",
    "C95_global_ik_example",
    "C95_posture_descent",
    "C95_posture_converges_iff"
   ],
   "note": ""
  },
  {
   "property": "C96",
   "status": "proved",
   "theorems": [
    "C96_loop_runs_or_a_barrier_is_idle",
    "C96_loop_never_fails",
    "C96_loop_stays_within_limits",
    "C96_cassie_squat"
   ],
   "note": ""
  },
  {
   "property": "C97",
   "status": "proved",
   "theorems": [
    "C97_goals_met_iff",
    "C97_best_are_those_that_meet",
    "C97_nonzero_costs_care",
    "C97_exponential_decay",
    "C97_geometric_decay"
   ],
   "note": "Exact arithmetic; the solver is any that returns a best admissible velocity. The continuous and stepwise decay assume the component's error moves with its Jacobian (flows/advances, see C18, C19, C76, C88)."
  },
  {
   "property": "C98",
   "status": "proved",
   "theorems": [
    "C98_damping_shortens",
    "C98_assigned_damping"
   ],
   "note": "Exact solutions (`best`); `reacts` says the damping has an effect at the configuration."
  },
  {
   "property": "C99",
   "status": "proved",
   "theorems": [
    "C99_speed_scales",
    "C99_assigned_speed"
   ],
   "note": "Exact solutions; `lists_all` names each component of the problem once."
  },
  {
   "property": "C100",
   "status": "proved",
   "theorems": [
    "C100_added_component",
    "C100_restriction_costs",
    "C100_restriction_met",
    "C100_idle_barrier",
    "C100_wider_limits"
   ],
   "note": "Exact solutions; the idle-barrier part assumes nonnegative damping numbers."
  },
  {
   "property": "C101",
   "status": "proved",
   "theorems": [
    "C101_higher_cost",
    "C101_assigned_cost",
    "C101_large_cost"
   ],
   "note": "Exact solutions. `cost_of` of the component is measured with its old cost."
  },
  {
   "property": "C102",
   "status": "proved",
   "theorems": [
    "C102_soft_is_task",
    "C102_soft_compiled_is_task",
    "C102_twice_is_once"
   ],
   "note": "Exact solutions; the constraint is built with hard_constraint=False and the task with lm_damping=0."
  },
  {
   "property": "C103",
   "status": "proved",
   "theorems": [
    "C103_residual",
    "C103_no_tolerance",
    "C103_limits_up_to_tolerance",
    "C103_flow_up_to_tolerance",
    "C103_loop_up_to_tolerance",
    "C103_readme_up_to_tolerance"
   ],
   "note": "What a solver with tolerance eps guarantees; complements C48 and C94, which assume exact solves. Whether OSQP reaches a given eps is outside the model."
  },
  {
   "property": "C104",
   "status": "proved",
   "theorems": [
    "C104_gap_bounds_distance"
   ],
   "note": "Strong convexity in the directions the components weigh; no sign condition on damping is needed."
  },
  {
   "property": "C105",
   "status": "proved",
   "theorems": [
    "C105_damping_bounds_speed"
   ],
   "note": "Soft constraints are excluded: they have no damping in the code."
  },
  {
   "property": "C106",
   "status": "proved",
   "theorems": [
    "C106_target_moves_solution",
    "C106_nearby_targets",
    "C106_distance_of_targets"
   ],
   "note": "Frame tasks are not covered: their error is not linear in the target and their Jacobian depends on it. Damped tasks are excluded because their damping scales with the error."
  },
  {
   "property": "C107",
   "status": "proved",
   "theorems": [
    "C107_same_cost",
    "C107_same_best_velocities",
    "C107_diagonal"
   ],
   "note": "Exact arithmetic. For automatically differentiated tasks the differentiator must be sound and the value differentiable at the configuration."
  },
  {
   "property": "C108",
   "status": "proved",
   "theorems": [
    "C108_part_value",
    "C108_part_jacobian",
    "C108_same_condition",
    "C108_same_admissible",
    "C108_same_best_velocities",
    "C108_vanishing_part",
    "C108_any_split_refuted"
   ],
   "note": "C108_any_split_refuted exhibits a split whose problem has no solution, as the property says (0/0 in the safe-displacement term even with gain 0); it refutes the stronger claim that any split will do."
  },
  {
   "property": "C109",
   "status": "proved",
   "theorems": [
    "C109_runs_by_value",
    "C109_calls_by_value",
    "C109_numbers_are_copied",
    "C109_lists_are_copied_refuted",
    "C109_unnoticed_until_bound",
    "C109_contents_at_binding"
   ],
   "note": "C109_lists_are_copied_refuted shows that the lists named in the statement are indeed kept by reference; the property as stated is proved. SE3 objects and mjx models are taken to be immutable, as their classes declare them."
  },
  {
   "property": "C110",
   "status": "proved",
   "theorems": [
    "C110_order_is_irrelevant",
    "C110_same_steps",
    "C110_parts_add_up",
    "C110_registration_order"
   ],
   "note": "Exact arithmetic: in floating point the sums may differ by rounding. C110_same_steps assumes that the loss is defined everywhere (no constraints) and that differentiation depends on values only."
  },
  {
   "property": "C111",
   "status": "proved",
   "theorems": [
    "C111_looks_change_nothing",
    "C111_equality_mask_exception",
    "C111_look_at_unmodified"
   ],
   "note": "The exception for mask of a re-bound equality constraint is needed: C111_equality_mask_exception exhibits it (the code keeps the mask of the first robot)."
  },
  {
   "property": "C112",
   "status": "proved",
   "theorems": [
    "C112_modified"
   ],
   "note": ""
  },
  {
   "property": "C113",
   "status": "proved",
   "theorems": [
    "C113_com_task_arguments",
    "C113_position_task_arguments",
    "C113_frame_task_arguments",
    "C113_joint_task_arguments",
    "C113_position_barrier_arguments",
    "C113_joint_barrier_arguments",
    "C113_self_collision_arguments",
    "C113_equality_arguments",
    "C113_custom_task_arguments",
    "C113_custom_barrier_arguments",
    "C113_custom_constraint_arguments",
    "C113_compiled_is_shown",
    "C113_undefined",
    "C113_always_readable",
    "C113_gain",
    "C113_cost",
    "C113_target",
    "C113_position_limits",
    "C113_model",
    "C113_object_id",
    "C113_target_q",
    "C113_joint_limits_readable",
    "C113_joint_limits"
   ],
   "note": "A rejected binding of a joint task, joint barrier, self-collision barrier or equality constraint leaves the rejected model visible in model."
  },
  {
   "property": "C114",
   "status": "proved",
   "theorems": [
    "C114_fields_are_attributes",
    "C114_no_other_fields",
    "C114_constants",
    "C114_problem_data",
    "C114_problem_data_in_tree"
   ],
   "note": ""
  },
  {
   "property": "C115",
   "status": "proved",
   "theorems": [
    "C115_integrate_accepts",
    "C115_integrate_length",
    "C115_extra_entries_ignored",
    "C115_missing_entries_repeat",
    "C115_ball_without_velocity_turns"
   ],
   "note": ""
  },
  {
   "property": "C116",
   "status": "proved",
   "theorems": [
    "C116_limits_up_to_errors",
    "C116_one_rounding",
    "C116_rounded_sum",
    "C116_limits_in_single_precision"
   ],
   "note": "Rounding inside the quadratic programme and the solver counts as eps; overflow to infinity is not modelled."
  },
  {
   "property": "C117",
   "status": "proved",
   "theorems": [
    "C117_values_after_steps",
    "C117_violation_for_ever",
    "C117_from_accelerations",
    "C117_straight_motion",
    "C117_joint_barriers_do_not_curve",
    "C117_rates_along_the_line"
   ],
   "note": "The bound M on the acceleration is an assumption about the robot and the speed; it is proved to be 0 for joint barriers on hinges and slides."
  },
  {
   "property": "C118",
   "status": "proved",
   "theorems": [
    "C118_rows",
    "C118_at_objects",
    "C118_rigid_body",
    "C118_carried_points",
    "C118_self_collision_rows"
   ],
   "note": "The documentation announces a 6 x nv matrix; the code returns nv x 6, which is what is proved. That the object itself moves as its Jacobian says is an assumption about the simulator's kinematics."
  },
  {
   "property": "C119",
   "status": "proved",
   "theorems": [
    "C119_error_after_steps",
    "C119_lag_in_the_long_run",
    "C119_best_velocities_meet_tasks",
    "C119_setting_a_target",
    "C119_errors_shift_with_targets",
    "C119_joint_tasks_do_not_curve"
   ],
   "note": "Frame tasks satisfy the general theorem with s measured in their error coordinates; how far their error shifts for a given change of pose is not bounded here."
  },
  {
   "property": "C120",
   "status": "proved",
   "theorems": [
    "C120_lanes_are_loops",
    "C120_template_takes_axes",
    "C120_batched_loop_never_fails",
    "C120_lanes_stay_within_limits",
    "C120_readme_batches"
   ],
   "note": "vmap is modelled by its documented meaning, one call per lane on the slices that the template asks for; the jitted integrate of the examples is applied lane by lane."
  },
  {
   "property": "C121",
   "status": "proved",
   "theorems": [
    "C121_runs_or_a_barrier_is_idle",
    "C121_batches_never_fail",
    "C121_batches_keep_limits",
    "C121_go2_squat",
    "C121_cassie_alip",
    "C121_g1_heart",
    "C121_local_ik_output"
   ],
   "note": "The examples are covered as to the problems they set up and the loop they run; how they compute their targets, and visualisation, are not."
  },
  {
   "property": "C122",
   "status": "proved",
   "theorems": [
    "C122_lanes_are_loops",
    "C122_batches_never_fail",
    "C122_constraint_stops",
    "C122_repeated_solves",
    "C122_repeats_are_idle",
    "C122_one_problem_for_all_lanes",
    "C122_local_one_problem",
    "C122_global_output",
    "C122_global_input",
    "C122_local_input"
   ],
   "note": "The optimizer is arbitrary except that its step has as many entries as the gradient; optax itself is not modelled."
  },
  {
   "property": "C123",
   "status": "proved",
   "theorems": [
    "C123_error_leads_to_the_target",
    "C123_motion_is_unique"
   ],
   "note": "Inside the two small ranges the logarithm is a truncated series or uses pi in place of the angle; there C124 applies. The pose is the one mjx computed."
  },
  {
   "property": "C124",
   "status": "proved",
   "theorems": [
    "C124_error_is_close_to_a_twist",
    "C124_everywhere",
    "C124_masked"
   ],
   "note": "Exact real arithmetic apart from the approximations written in jaxlie. The pose is the one mjx computed."
  },
  {
   "property": "C125",
   "status": "proved",
   "theorems": [
    "C125_one_twist",
    "C125_error_is_the_only_twist",
    "C125_error_shrinks"
   ],
   "note": "In the two small ranges where the logarithm is approximated C124 bounds the difference. The poses are those mjx computed."
  },
  {
   "property": "C126",
   "status": "partial",
   "theorems": [
    "C126_moves_away_refuted",
    "C126_right_rates_partial",
    "C126_no_lever_partial",
    "C126_solver_moves_away_refuted",
    "C126_solver_no_lever_partial"
   ],
   "note": "False of the code: C126_moves_away_refuted is a well-formed program in which the best velocity increases the error. The partial theorems cover every task whose Jacobian reports the right rates and the frames for which C34 shows that it does; missing are the poses where it does not."
  },
  {
   "property": "C127",
   "status": "partial",
   "theorems": [
    "C127_doubled_turning_partial",
    "C127_moves_away_refuted",
    "C127_scalar_joints_partial",
    "C127_turning_partial",
    "C127_floating_base_refuted",
    "C127_solver_moves_away_refuted",
    "C127_solver_scalar_joints_partial",
    "C127_solver_ball_joints_partial"
   ],
   "note": "False of the code: C127_moves_away_refuted is a well-formed program in which every best velocity, and so what every exact solver returns (C127_solver_moves_away_refuted), increases the error. The partial theorems cover robots of hinge and slide joints and velocities that only turn ball joints; missing are velocities that mix both. C127_doubled_turning_partial holds on every robot: it speaks of the motion in which the turning of ball and free joints in the returned velocity is doubled. C127_floating_base_refuted has a failing exact solver already for one body on one free joint."
  },
  {
   "property": "C128",
   "status": "partial",
   "theorems": [
    "C128_solver_ball_joints_partial",
    "C128_limit_is_crossed_refuted",
    "C128_scalar_joints_partial",
    "C128_turning_partial",
    "C128_solver_scalar_joints_partial",
    "C128_doubled_turning_partial",
    "C128_floating_base_refuted"
   ],
   "note": "False of the code: C128_limit_is_crossed_refuted is a well-formed program in which every best velocity, and what every exact solver returns, crosses a position limit that is just reached. The partial theorems cover robots of hinge and slide joints and velocities that only turn ball joints; missing are velocities that mix both. C89 has the corresponding statement over whole motions under the hypothesis that the Jacobian is the derivative. C128_doubled_turning_partial holds on every robot: it speaks of the motion in which the turning of ball and free joints in the returned velocity is doubled. C128_floating_base_refuted has a failing exact solver already for one body on one free joint."
  },
  {
   "property": "C129",
   "status": "partial",
   "theorems": [
    "C129_solver_ball_joints_partial",
    "C129_doubled_turning_partial",
    "C129_floating_base_refuted",
    "C129_constraint_slips_refuted",
    "C129_scalar_joints_partial",
    "C129_turning_partial",
    "C129_solver_scalar_joints_partial"
   ],
   "note": "False of the code: C129_constraint_slips_refuted is a well-formed program in which every best velocity, and what every exact solver returns, moves a hard constraint that is met away from zero. The partial theorems cover robots of hinge and slide joints and velocities that only turn ball joints; missing are velocities that mix both. C129_doubled_turning_partial holds on every robot: it speaks of the motion in which the turning of ball and free joints in the returned velocity is doubled. C129_floating_base_refuted has a failing exact solver already for one body on one free joint."
  }
 ]
}