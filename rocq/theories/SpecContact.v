(** What it means for geom pairs to be grouped and for contacts to belong to a
    geom pair. *)
From Verif Require Import Base Lin Mjx Rot FrameJac Collide SpecCollision SpecTree SpecShape.
Open Scope R_scope.
Open Scope Z_scope.

(** Every geom table has one entry per geom. *)
Definition wf_geoms (m : mjmodel) : Prop :=
  List.length (m_geom_type m) = List.length (m_geom_bodyid m) /\ List.length (m_geom_dataid m) = List.length (m_geom_bodyid m) /\
  List.length (m_geom_priority m) = List.length (m_geom_bodyid m) /\ List.length (m_geom_condim m) = List.length (m_geom_bodyid m).
Definition geom_pair (m : mjmodel) (p : Z * Z) : Prop := is_geom m (fst p) /\ is_geom m (snd p).

(** The pair with the smaller geom type first. *)
Definition orient (m : mjmodel) (p : Z * Z) : Z * Z :=
  if ent (m_geom_type m) (snd p) <? ent (m_geom_type m) (fst p) then (snd p, fst p) else p.
(** Contact dimension: that of the geom of higher priority, the larger one on a tie. *)
Definition contact_dim (m : mjmodel) (p : Z * Z) : Z :=
  match ent (m_geom_priority m) (fst p) ?= ent (m_geom_priority m) (snd p) with
  | Gt => ent (m_geom_condim m) (fst p)
  | Lt => ent (m_geom_condim m) (snd p)
  | Eq => Z.max (ent (m_geom_condim m) (fst p)) (ent (m_geom_condim m) (snd p))
  end.
(** Geom types, data ids and contact dimension agree. *)
Definition same_sort (m : mjmodel) (p q : Z * Z) : Prop :=
  ent (m_geom_type m) (fst p) = ent (m_geom_type m) (fst q) /\ ent (m_geom_type m) (snd p) = ent (m_geom_type m) (snd q) /\
  ent (m_geom_dataid m) (fst p) = ent (m_geom_dataid m) (fst q) /\ ent (m_geom_dataid m) (snd p) = ent (m_geom_dataid m) (snd q) /\
  contact_dim m p = contact_dim m q.
(** Selecting from a list, in order, the elements with a property. *)
Inductive picks {A} (P : A -> Prop) : list A -> list A -> Prop :=
| picks_nil : picks P [] []
| picks_yes x l r : P x -> picks P l r -> picks P (x :: l) (x :: r)
| picks_no x l r : ~ P x -> picks P l r -> picks P (x :: l) r.
(** The sort a group key describes. *)
Definition key_describes (m : mjmodel) (k : fkey) (p : Z * Z) : Prop :=
  k_types k = (ent (m_geom_type m) (fst p), ent (m_geom_type m) (snd p)) /\
  k_data k = (ent (m_geom_dataid m) (fst p), ent (m_geom_dataid m) (snd p)) /\ k_condim k = contact_dim m p.

(** What the collision function for the types of [p] reports about [p]:
    [ncon] contacts, each next to the geom ids. *)
Definition reports (T : colltab) (m : mjmodel) (d : mjdata) (p : Z * Z) (l : list ((Z * Z) * contact)) : Prop :=
  exists ncon f k, key_describes m k p /\ T (k_types k) = Some (ncon, f) /\ (1 <= ncon)%nat /\
    List.length (f m d k p) = ncon /\ l = map (fun c => (p, c)) (f m d k p).
(** Every pair of geom types has a collision function, which returns at least one
    contact and always the same number. *)
Definition full_table (T : colltab) (m : mjmodel) (ps : list (Z * Z)) : Prop :=
  colltab_ok T /\
  forall p, In p ps -> exists n f, T (ent (m_geom_type m) (fst (orient m p)), ent (m_geom_type m) (snd (orient m p))) = Some (n, f) /\ (1 <= n)%nat.
(** The four arrays of the result, side by side. *)
Inductive side_by_side : contacts -> list ((Z * Z) * contact) -> Prop :=
| sbs l : side_by_side (mkCs (map fst l) (map (fun x => ct_dist (snd x)) l) (map (fun x => ct_pos (snd x)) l) (map (fun x => ct_frame (snd x)) l)) l.

(** [x] is the smallest element of [l]. *)
Definition minimum_of (l : list R) (x : R) : Prop := In x l /\ forall y, In y l -> (x <= y)%R.
(** [l] are the [n] smallest members of [d], in increasing order. *)
Definition n_smallest (n : nat) (d l : list R) : Prop :=
  List.length l = n /\ StronglySorted Rle l /\
  exists rest, Permutation (l ++ rest) d /\ forall x y, In x l -> In y rest -> (x <= y)%R.

(** Velocity, per unit speed of dof [k], of the point [p] moving with body [b]:
    nothing unless the dof moves the body; else translation plus axis x arm. *)
Definition point_velocity (m : mjmodel) (d : mjdata) (p : list R) (b k : nat) (v : list R) : Prop :=
  (~ in_subtree m (dof_body m k) b /\ v = vzero 3) \/
  (in_subtree m (dof_body m k) b /\ v = vadd (skipn 3 (nth k (d_cdof d) [])) (cross3 (firstn 3 (nth k (d_cdof d) []))
         (vsub p (nth (Z.to_nat (nth b (m_body_rootid m) 0)) (d_subtree_com d) [])))).
(** The normal of a contact: the first row of its frame. *)
Definition contact_normal (c : contact) : list R := [m00 (ct_frame c); m01 (ct_frame c); m02 (ct_frame c)].
(** The rate of change of the distance of a contact between the geoms [g], for each
    dof: normal . (velocity of the point on the second geom - velocity of the point
    on the first geom).  The points lie half the distance away from the contact
    position, along the normal. *)
Definition distance_rate (m : mjmodel) (d : mjdata) (g : Z * Z) (c : contact) (row : list R) : Prop :=
  let n := contact_normal c in
  let p1 := vsub (v3_list (ct_pos c)) (vscale (ct_dist c / 2) n) in
  let p2 := vadd (v3_list (ct_pos c)) (vscale (ct_dist c / 2) n) in
  List.length row = m_nv m /\
  forall k v1 v2, (k < m_nv m)%nat ->
    point_velocity m d p1 (Z.to_nat (ent (m_geom_bodyid m) (fst g))) k v1 ->
    point_velocity m d p2 (Z.to_nat (ent (m_geom_bodyid m) (snd g))) k v2 ->
    nth k row 0%R = dot n (vsub v2 v1).

(** MuJoCo's number for height fields ([mjtGeom]: plane 0, height field 1, sphere 2). *)
Definition height_field : Z := 1%Z.
