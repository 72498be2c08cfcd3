(** Vocabulary for histories of one component. *)
From Verif Require Import Base Lin Mjx Typing Component SpecComponent SpecJoint.
Open Scope nat_scope.

(** A call through the documented API whose model argument, if any, has
    consistent joint tables. *)
Definition sound_op (o : cop) : Prop :=
  match o with OpAssign _ => False | OpModel m => wf_joints m | _ => True end.

(** The compiled component of [c], as returned by [jax_component]. *)
Definition compiles (c : comp) (j : jaxc) : Prop := fst (jax_component c) = Ok j.

(** [c'] is [c] bound to [m]. *)
Definition bound_to (m : mjmodel) (c c' : comp) : Prop := update_model m c = (Ok tt, c').

(** Joint components. *)
Definition joint_component (c : comp) : Prop :=
  (exists cost lm j, a_ext (c_at c) = XTask cost lm (TJoint j)) \/ (exists s j, a_ext (c_at c) = XBarrier s (BJoint j)).
(** The gain and cost arrays are arrays (shape and data agree). *)
Definition wf_arrays (a : attrs) : Prop :=
  wf_tensor (a_gain a) /\
  match a_ext a with
  | XTask c _ _ => wf_tensor c
  | XConstraint _ _ (Some t) _ => wf_tensor t
  | _ => True
  end.
(** A documented call with well-formed gain and cost arrays. *)
Definition wf_call (o : cop) : Prop :=
  match o with OpGain t | OpCost t => wf_tensor t | OpAssign _ => False | _ => True end.

(** The mask argument a joint component was created with. *)
Definition user_mask (c : comp) (f : option (list Z)) : Prop :=
  (exists cost lm j, a_ext (c_at c) = XTask cost lm (TJoint j) /\ jt_final j = f) \/
  (exists s j, a_ext (c_at c) = XBarrier s (BJoint j) /\ jb_final j = f).
(** The limits a JointBarrier holds; the target a JointTask holds. *)
Definition q_limits (c : comp) (lo hi : option tensor) : Prop :=
  exists s j, a_ext (c_at c) = XBarrier s (BJoint j) /\ jb_qmin j = lo /\ jb_qmax j = hi.
Definition q_target (c : comp) (t : option tensor) : Prop :=
  exists cost lm j, a_ext (c_at c) = XTask cost lm (TJoint j) /\ jt_target j = t.

(** The value stored for a limit argument [t] when [n] axes are selected: a
    scalar is broadcast, an array with last axis [n] is stored as it is. *)
Definition limit_value (n : nat) (t t' : tensor) : Prop :=
  (exists x, t = mkT [] [x] /\ t' = tvec (vconst n x)) \/ (last_dim t = Ok n /\ t' = t).

(** Rows contributed by one equality of the model. *)
Definition eq_rows (t : eqtype) : nat := match t with EqConnect => 3 | EqWeld => 6 | EqJoint => 1 | EqOther _ => 0 end.
Definition eq_supported (t : eqtype) : Prop := match t with EqOther _ => False | _ => True end.

(** Position barrier: the limits it holds, the number of axes its mask selects. *)
Definition p_limits (c : comp) (lo hi : tensor) : Prop :=
  exists s p, a_ext (c_at c) = XBarrier s (BPos p) /\ pb_min p = lo /\ pb_max p = hi.
Definition n_axes (mk : option marr) : nat :=
  List.length (filter (fun x => negb (x =? 0)%Z) (match mk with Some k => mk_data k | None => [1%Z; 1%Z; 1%Z] end)).
(** The target a FrameTask holds. *)
Definition frame_target (c : comp) (t : tensor) : Prop :=
  exists cost lm o, a_ext (c_at c) = XTask cost lm (TFrame o t).
