(** Vocabulary for derivatives of functions of several variables. *)
From Verif Require Import Base Lin Mjx Rot Typing Component SpecJoint SpecMotion SpecConf Conf JaxComponents SpecTree SpecShape.
Open Scope R_scope.

(** Sum of absolute values. *)
Definition size (h : vec) : R := vsum (map Rabs h).
(** [F] is (totally) differentiable at [x] with gradient [g]: the linear function given
    by [g] approximates the change of [F] to first order. *)
Definition has_gradient (F : vec -> R) (x g : vec) : Prop :=
  forall eps, 0 < eps -> exists del, 0 < del /\ forall y, List.length y = List.length x -> size (vsub y x) < del ->
    Rabs (F y - F x - dot g (vsub y x)) <= eps * size (vsub y x).
(** The same for a function with vector values; row [i] of [M] belongs to entry [i]. *)
Definition has_jacobian (F : vec -> vec) (x : vec) (M : mat) : Prop :=
  forall i, (i < List.length M)%nat -> has_gradient (fun y => nth i (F y) 0) x (nth i M []).
(** A procedure that finds the Jacobian matrix of every function that has one at the
    given point (and is defined on all vectors of that length). *)
Definition sound_jac (D : (list R -> res (list R)) -> list R -> res mat) : Prop :=
  forall f F x k M, (forall y, List.length y = List.length x -> f y = Ok (F y) /\ List.length (F y) = k) ->
    is_mat k (List.length x) M -> has_jacobian F x M -> D f x = Ok M.

(** ** Components with an automatic Jacobian *)
Definition automatic (j : jaxc) : Prop :=
  match j_ext j with
  | JTask _ _ (JTCom _) | JTask _ _ (JTPos _ _ _) | JTask _ _ (JTCustom _) | JBarrier _ (JBPos _ _ _ _ _) | JBarrier _ (JBCustom _) | JConstraint _ _ _ (JCCustom _) => True
  | _ => False
  end.
(** The value of the component at configuration [q], and after moving with velocity [v] for time [t]. *)
Definition value_at (L : lib) (j : jaxc) (q : vec) : vec := match call L j (update L (j_model j) q) with Ok e => e | Err _ => [] end.
Definition value_after (L : lib) (j : jaxc) (q v : vec) (t : R) : vec := match integrate (j_model j) q v t with Ok q' => value_at L j q' | Err _ => [] end.
(** The value exists at all configurations, has [k] entries, and is differentiable at [q]. *)
Definition smooth (L : lib) (j : jaxc) (k : nat) (q : vec) : Prop :=
  (forall y, List.length y = m_nq (j_model j) -> exists e, call L j (update L (j_model j) y) = Ok e /\ List.length e = k) /\
  exists M, is_mat k (m_nq (j_model j)) M /\ has_jacobian (value_at L j) q M.
(** The value depends only on what forward kinematics computes (for the centre of mass:
    the simulator's value is the weighted mean of the body positions). *)
Definition kinematic (L : lib) (j : jaxc) : Prop :=
  forall y, List.length y = m_nq (j_model j) ->
  match j_ext j with
  | JTask _ _ (JTCom _) => exists d, com_update L (j_model j) y = Ok d /\ call L j d = call L j (update L (j_model j) y)
  | _ => call L j (kin L (j_model j) y) = call L j (update L (j_model j) y)
  end.
(** The later stages of the simulator leave all positions as kinematics computed them. *)
Definition keeps_positions (L : lib) (m : mjmodel) : Prop :=
  forall y, let d := kin L m y in let d' := update L m y in
  d_xpos d' = d_xpos d /\ d_geom_xpos d' = d_geom_xpos d /\ d_site_xpos d' = d_site_xpos d.
(** [w] moves hinges, slides and translations as [v] does and turns ball and free joints
    twice as fast. *)
Definition turns_twice (m : mjmodel) (v w : vec) : Prop :=
  List.length w = List.length v /\
  (forall j, scalar_joint m j -> nth (dof_of m j) w 0 = nth (dof_of m j) v 0) /\
  (forall j, free_joint m j -> vec_in w (dof_of m j) = vec_in v (dof_of m j)) /\
  (forall j a b, quat_joint m j a b -> vec_in w b = v3_scale 2 (vec_in v b)).
(** Only ball and free joints turn; nothing else moves. *)
Definition only_turns (m : mjmodel) (v : vec) : Prop :=
  (forall j, scalar_joint m j -> nth (dof_of m j) v 0 = 0) /\ (forall j, free_joint m j -> vec_in v (dof_of m j) = v3_zero).
(** The simulator's centre of mass of everything is the mean of the body positions that
    kinematics computes, weighted with the masses; the total mass is not negligible. *)
Definition com_is_mean (L : lib) (m : mjmodel) : Prop :=
  let all := seq 0 (m_nbody m) in / 1000000000000000 <= mass_of m all /\
  forall y, List.length y = m_nq m -> exists xs, d_xipos (kin L m y) = map v3_list xs /\ List.length xs = m_nbody m /\ d_subtree_com (update L m y) <> [] /\
    nth 0 (d_subtree_com (update L m y)) [] = v3_list (v3_scale (/ mass_of m all) (moment_of m xs all)).

(** ** Moving objects *)
(** Simulation data after moving from [q] with velocity [v] for time [t]. *)
Definition data_after (L : lib) (m : mjmodel) (q v : vec) (t : R) : mjdata := match integrate m q v t with Ok q' => update L m q' | Err _ => update L m q end.
(** Column [c] of a row-major 3x3 matrix. *)
Definition col3 (M : list R) (c : nat) : list R := [nth c M 0; nth (3 + c) M 0; nth (6 + c) M 0].
(** At time 0 the position of the object changes with velocity [l] and its orientation
    turns with angular velocity [w] (both in world coordinates). *)
Definition moves_with (P : R -> mjdata) (ty : objtype) (i : nat) (l w : vec) : Prop :=
  (forall c, (c < 3)%nat -> derivative_at_0 (fun t => nth c (position (P t) ty i) 0) (nth c l 0)) /\
  (forall r c, (r < 3)%nat -> (c < 3)%nat -> derivative_at_0 (fun t => nth (3 * r + c) (orientation (P t) ty i) 0) (nth r (cross3 w (col3 (orientation (P 0) ty i) c)) 0)).
