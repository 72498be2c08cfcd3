(** Array sizes of a MuJoCo model and of its simulation data. *)
From Verif Require Import Base Lin Mjx Rot Conf SpecTree.
Open Scope R_scope.

Definition in_range (n : nat) (i : Z) : Prop := (0 <= i < Z.of_nat n)%Z.
(** Number of bodies, geoms, sites. *)
Definition count (m : mjmodel) (ty : objtype) : nat :=
  match ty with OGeom => List.length (m_geom_bodyid m) | OSite => List.length (m_site_bodyid m) | _ => m_nbody m end.
(** The body carrying an object. *)
Definition carrier (m : mjmodel) (ty : objtype) (i : nat) : nat :=
  match ty with
  | OGeom => Z.to_nat (nth i (m_geom_bodyid m) 0%Z) | OSite => Z.to_nat (nth i (m_site_bodyid m) 0%Z) | _ => i
  end.
(** World position and rotation matrix of an object. *)
Definition position (d : mjdata) (ty : objtype) (i : nat) : list R :=
  match ty with OGeom => nth i (d_geom_xpos d) [] | OSite => nth i (d_site_xpos d) [] | _ => nth i (d_xpos d) [] end.
Definition orientation (d : mjdata) (ty : objtype) (i : nat) : list R :=
  match ty with OGeom => nth i (d_geom_xmat d) [] | OSite => nth i (d_site_xmat d) [] | _ => nth i (d_xmat d) [] end.

Definition wf_model (m : mjmodel) : Prop :=
  wf_joints m /\ wf_tree m /\ wf_dofs m /\
  List.length (m_body_rootid m) = m_nbody m /\ Forall (in_range (m_nbody m)) (m_body_rootid m) /\
  Forall (in_range (m_nbody m)) (m_geom_bodyid m) /\ Forall (in_range (m_nbody m)) (m_site_bodyid m) /\
  List.length (m_body_mass m) = m_nbody m.
(** Simulation data of a model: every array has the documented shape. *)
Definition wf_data (m : mjmodel) (d : mjdata) : Prop :=
  List.length (d_qpos d) = m_nq m /\
  is_mat (m_nbody m) 3 (d_xpos d) /\ is_mat (m_nbody m) 9 (d_xmat d) /\ is_mat (m_nbody m) 4 (d_xquat d) /\ is_mat (m_nbody m) 3 (d_xipos d) /\
  is_mat (count m OGeom) 3 (d_geom_xpos d) /\ is_mat (count m OGeom) 9 (d_geom_xmat d) /\
  is_mat (count m OSite) 3 (d_site_xpos d) /\ is_mat (count m OSite) 9 (d_site_xmat d) /\
  is_mat (m_nbody m) 3 (d_subtree_com d) /\ is_mat (m_nv m) 6 (d_cdof d) /\
  List.length (d_efc_is_equality d) = List.length (d_efc_pos d) /\ is_mat (List.length (d_efc_pos d)) (m_nv m) (d_efc_J d).
(** Rotation of a vector into the frame with (row-major) rotation matrix [R]. *)
Definition rotate_back (R9 : list R) (x : list R) : list R :=
  map (fun c => nth c R9 0 * nth 0 x 0 + nth (3 + c) R9 0 * nth 1 x 0 + nth (6 + c) R9 0 * nth 2 x 0) [0; 1; 2]%nat.
(** Cross product of two lists of three numbers. *)
Definition cross3 (a b : list R) : list R :=
  [nth 1 a 0 * nth 2 b 0 - nth 2 a 0 * nth 1 b 0; nth 2 a 0 * nth 0 b 0 - nth 0 a 0 * nth 2 b 0; nth 0 a 0 * nth 1 b 0 - nth 1 a 0 * nth 0 b 0].
