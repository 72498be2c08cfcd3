(** Vocabulary for compiled self-collision barriers. *)
From Verif Require Import Base Lin Mjx Typing Component SpecComponent SpecHistory SpecCollision SpecContact Rot FrameJac Collide JaxComponents.
Open Scope R_scope.

(** A documented call whose model argument, if any, satisfies [Q]. *)
Definition call_with (Q : mjmodel -> Prop) (o : cop) : Prop :=
  match o with OpAssign _ => False | OpModel m => Q m | _ => True end.
(** Body and geom tables are consistent. *)
Definition wf_collision (m : mjmodel) : Prop := wf_bodies m /\ wf_geoms m.

(** [j]: the compiled form of a SelfCollisionBarrier made with minimal distance
    [dm] and n_closest_pairs [n], after any documented calls whose model bindings
    succeeded. *)
Definition self_barrier (dm : R) (n : Z) (j : jaxc) : Prop :=
  exists name gain gf sdg bs er c os, new_self_collision name gain gf sdg dm bs er n = Ok c /\
    Forall (call_with wf_collision) os /\ binds_ok os c /\ compiles (history os c) j.
(** The same with exactly one model binding. *)
Definition self_barrier_bound_once (dm : R) (n : Z) (j : jaxc) : Prop :=
  exists name gain gf sdg bs er c os1 m os2, new_self_collision name gain gf sdg dm bs er n = Ok c /\
    wf_collision m /\ Forall no_bind os1 /\ Forall no_bind os2 /\ binds_ok (os1 ++ OpModel m :: os2) c /\
    compiles (history (os1 ++ OpModel m :: os2) c) j.
(** The geom pairs it checks. *)
Definition checked_pairs (j : jaxc) (ps : list (Z * Z)) : Prop := exists sdg dv n, j_ext j = JBarrier sdg (JBSelf dv ps n).
(** All contacts of the pairs [ps], as reported by the collision functions. *)
Definition all_contacts (L : lib) (m : mjmodel) (d : mjdata) (ps : list (Z * Z)) (l : list ((Z * Z) * contact)) : Prop :=
  exists rs, Forall2 (reports (l_coll L) m d) (map (orient m) ps) rs /\ l = List.concat rs.
Definition distances_of (l : list ((Z * Z) * contact)) : list R := map (fun x => ct_dist (snd x)) l.
(** The geoms of every pair already are in type order, all pairs are of one sort,
    and the collision function of this sort reports one contact. *)
Definition one_sort (L : lib) (m : mjmodel) (ps : list (Z * Z)) : Prop :=
  (forall p, In p ps -> orient m p = p) /\ (forall p q, In p ps -> In q ps -> same_sort m p q) /\
  (forall p, In p ps -> exists f, l_coll L (ent (m_geom_type m) (fst p), ent (m_geom_type m) (snd p)) = Some (1%nat, f)).
(** Row [i] of the Jacobian is the rate of change of the distance of the contact
    whose distance is value [i]. *)
Definition rows_match (L : lib) (m : mjmodel) (d : mjdata) (ps : list (Z * Z)) (dm : R) (h : vec) (J : mat) : Prop :=
  List.length J = List.length h /\
  forall l i x row, all_contacts L m d ps l -> nth_error h i = Some x -> nth_error J i = Some row ->
    exists g c, In (g, c) l /\ x = ct_dist c - dm /\ distance_rate m d g c row.
