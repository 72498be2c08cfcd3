(** Vocabulary for masks: a masked task against the same task without a mask. *)
From Verif Require Import Base Lin Mjx Typing Component Problem JaxComponents SpecComponent SpecJoint SpecHistory SpecMotion SpecValue LocalIK SpecQP SpecSolve.
Open Scope R_scope.

(** Some rows of a matrix; the same rows and columns of a matrix. *)
Definition rows_at (as_ : list nat) (J : mat) : mat := map (fun a => nth a J []) as_.
Definition block_at (as_ : list nat) (W : mat) : mat := map (coords as_) (rows_at as_ W).
(** The weight [W] of a task with [n] axes does not involve axes outside [as_]. *)
Definition only_weighs (as_ : list nat) (W : mat) : Prop := forall a b, ~ (In a as_ /\ In b as_) -> nth b (nth a W []) 0 = 0.
(** The mask entries that are not zero, for a mask over hinges and slides. *)
Definition joint_axes (m : mjmodel) (fm : option (list Z)) : list nat := axes (n_scalar m) (option_map mvec fm).

(** [j'] is a masked version of the unmasked task [j], with selected axes [as_]: same
    model and same target where the mask selects. *)
Inductive masked (as_ : list nat) (j j' : jaxc) : Prop :=
| ms_frame mk on ty q p : frame_task None on ty j -> frame_task mk on ty j' -> has_pose ty -> mask_within 6 mk -> as_ = axes 6 mk ->
    target_frame_is j q p -> target_frame_is j' q p -> masked as_ j j'
| ms_position mk on ty t : position_task None on ty j -> position_task mk on ty j' -> has_pose ty -> mask_within 3 mk -> as_ = axes 3 mk ->
    target_is j t -> target_is j' (coords as_ t) -> masked as_ j j'
| ms_com mk t : com_task None j -> com_task mk j' -> wf_mask mk -> as_ = axes 3 mk ->
    target_is j t -> target_is j' (coords as_ t) -> masked as_ j j'
| ms_joint f t : joint_task None j -> joint_task (Some f) j' -> as_ = joint_axes (j_model j) (Some f) ->
    has_target j t -> has_target j' (coords as_ t) -> masked as_ j j'.

(** Gains, weights and damping of [j'] are those of [j] at the selected axes, and the
    weight of [j] is zero at the others. *)
Definition weighs_selected (as_ : list nat) (j j' : jaxc) : Prop :=
  j_gain j' = coords as_ (j_gain j) /\ (forall x, j_gain_fn j' x = j_gain_fn j x) /\
  exists W lm k k', j_ext j = JTask W lm k /\ j_ext j' = JTask (block_at as_ W) lm k' /\ only_weighs as_ W.
(** One problem has the same components as the other, except that some tasks whose
    weight is zero on some axes are replaced by tasks that mask these axes. *)
Definition masks_idle (pd pd' : jdata) : Prop :=
  jd_model pd' = jd_model pd /\ jd_vmin pd' = jd_vmin pd /\ jd_vmax pd' = jd_vmax pd /\
  Forall2 (fun j j' => j = j' \/ exists as_, j_model j' = j_model j /\ masked as_ j j' /\ weighs_selected as_ j j') (comps_of pd) (comps_of pd').
