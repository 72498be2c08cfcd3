(** Vocabulary for the values of compiled components. *)
From Verif Require Import Base Lin Mjx Typing Component SpecComponent SpecJoint SpecHistory SpecCollision SpecTree SpecShape SpecContact SpecSelf Rot Conf JaxComponents.
Open Scope R_scope.

(** Object types that have a pose. *)
Definition has_pose (ty : objtype) : Prop := match ty with OOther _ => False | _ => True end.
(** A model as produced by the MuJoCo compiler: all its tables are consistent,
    every name belongs to an existing object, and the root of the world is the world. *)
Definition sound_model (m : mjmodel) : Prop :=
  wf_model m /\ wf_bodies m /\ wf_geoms m /\ wf_names m /\
  (forall ty s i, has_pose ty -> has_object m ty s i -> (i < Z.of_nat (count m ty))%Z) /\
  List.length (m_eq_type m) = m_neq m /\ nth 0 (m_body_rootid m) 0%Z = 0%Z.
(** [j]: a compiled form of the freshly constructed [c], after any documented calls whose
    model bindings succeeded. *)
Definition compiled_from (c : comp) (j : jaxc) : Prop :=
  exists os, Forall (call_with sound_model) os /\ binds_ok os c /\ compiles (history os c) j.
Definition position_task (mk : option marr) (on : string) (ty : objtype) (j : jaxc) : Prop :=
  exists name cost gain gf lm c, new_position_task name cost gain on ty gf lm mk = Ok c /\ compiled_from c j.
Definition com_task (mk : option marr) (j : jaxc) : Prop :=
  exists name cost gain gf lm c, new_com_task name cost gain gf lm mk = Ok c /\ compiled_from c j.
Definition frame_task (mk : option marr) (on : string) (ty : objtype) (j : jaxc) : Prop :=
  exists name cost gain gf lm c, new_frame_task name cost gain on ty gf lm mk = Ok c /\ compiled_from c j.
Definition position_barrier (mk : option marr) (on : string) (ty : objtype) (lt : string) (j : jaxc) : Prop :=
  exists name gain lo hi gf sdg c, new_position_barrier name gain on ty lo hi lt gf sdg mk = Ok c /\ compiled_from c j.
Definition equality_constraint (j : jaxc) : Prop :=
  exists name gain hard soft c, new_model_equality name gain hard soft = Ok c /\ compiled_from c j.
Definition object_component (on : string) (ty : objtype) (j : jaxc) : Prop :=
  (exists mk, position_task mk on ty j) \/ (exists mk, frame_task mk on ty j) \/ (exists mk lt, position_barrier mk on ty lt j).

(** The numbers of the non-zero mask entries; without a mask all of [n]. *)
Definition axes (n : nat) (mk : option marr) : list nat :=
  match mk with
  | None => seq 0 n
  | Some k => filter (fun i => negb (nth i (mk_data k) 0 =? 0)%Z) (seq 0 (List.length (mk_data k)))
  end.
(** A mask is an array; it is not longer than [n]. *)
Definition wf_mask (mk : option marr) : Prop :=
  match mk with None => True | Some k => List.length (mk_data k) = fold_right Nat.mul 1%nat (mk_shape k) end.
Definition mask_within (n : nat) (mk : option marr) : Prop :=
  match mk with None => True | Some k => (List.length (mk_data k) <= n)%nat end.
(** Some coordinates of a vector. *)
Definition coords (as_ : list nat) (x : vec) : vec := map (fun a => nth a x 0) as_.

(** The target of a position or centre-of-mass task is the plain vector [t]. *)
Definition target_is (j : jaxc) (t : vec) : Prop :=
  (exists W lm, j_ext j = JTask W lm (JTCom (tvec t))) \/ (exists W lm o ty, j_ext j = JTask W lm (JTPos o ty (tvec t))).
(** The centre of mass of everything, as computed by the simulator. *)
Definition robot_com (d : mjdata) : vec := nth 0 (d_subtree_com d) [].
(** The limits of a position barrier are the plain vectors [lo] and [hi]; the one
    its type does not use does not matter. *)
Definition p_limits_are (lt : string) (j : jaxc) (lo hi : vec) : Prop :=
  exists sdg o ty l h li, j_ext j = JBarrier sdg (JBPos o ty l h li) /\ (lt <> "max"%string -> l = tvec lo) /\ (lt <> "min"%string -> h = tvec hi).
Definition inside (lt : string) (lo hi x : vec) : Prop :=
  (lt <> "max"%string -> vle lo x) /\ (lt <> "min"%string -> vle x hi).
Definition barrier_size (lt : string) (n : nat) : nat := if String.eqb lt "both" then (2 * n)%nat else n.

(** The entries of [l] whose flag is set, in order. *)
Definition flagged {A} (l : list A) (flags : list bool) : list A := map fst (filter snd (combine l flags)).

(** The target frame of a frame task: unit quaternion [q], translation [p]. *)
Definition target_frame_is (j : jaxc) (q : quat) (p : v3) : Prop :=
  q_norm2 q = 1 /\ exists W lm o ty, j_ext j = JTask W lm (JTFrame o ty (tvec (q_list q ++ v3_list p))).
(** The pose of object [i] of type [ty] in [d] is the rotation [M] and the position [x]. *)
Definition pose_is (d : mjdata) (ty : objtype) (i : nat) (M : m3) (x : v3) : Prop :=
  is_rotation M /\ orientation d ty i = m3_list M /\ position d ty i = v3_list x.
(** Two rotations differ by a half turn. *)
Definition trace (M : m3) : R := m00 M + m11 M + m22 M.
Definition half_turn (A B : m3) : Prop := trace (m3_mul (m3_tr A) B) = -1.
(** The rigid motion (G, g). *)
Definition move_rot (G M : m3) : m3 := m3_mul G M.
Definition move_pos (G : m3) (g x : v3) : v3 := v3_add (m3_app G x) g.

(** The target held by a centre-of-mass or position task object. *)
Definition held_target (c : comp) (t : tensor) : Prop :=
  (exists cost lm, a_ext (c_at c) = XTask cost lm (TCom t)) \/ (exists cost lm o, a_ext (c_at c) = XTask cost lm (TPos o t)).
(** Same values of the selected coordinates that exist. *)
Definition same_selected (n : nat) (mk : option marr) (x y : vec) : Prop :=
  forall a, In a (axes n mk) -> (a < n)%nat -> nth a x 0 = nth a y 0.
(** Number of rows of all equalities of a model. *)
Definition eq_total (m : mjmodel) : nat := fold_right (fun t k => (eq_rows t + k)%nat) 0%nat (m_eq_type m).
