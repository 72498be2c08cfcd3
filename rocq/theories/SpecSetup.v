(** Vocabulary for C92: when a component can be added to a problem and compiled. *)
From Verif Require Import Base Lin Mjx Typing Component Problem SpecComponent SpecJoint SpecHistory SpecCollision SpecTree SpecShape SpecContact SpecValue SpecProblem SpecTrace SpecFit.
Open Scope nat_scope.

(** Gain and cost arrays that fit a component with [d] entries. *)
Definition gain_fits (t : tensor) (d : nat) : Prop := t_shape t = [] \/ t_shape t = [d].
Definition cost_fits (t : tensor) (d : nat) : Prop := t_shape t = [] \/ t_shape t = [d] \/ t_shape t = [d; d].
(** The bodies a self-collision barrier looks at, as ids; none listed means all. *)
Definition lists_bodies (m : mjmodel) (bs : list cbody) (ids : list Z) : Prop :=
  match bs with [] => ids = all_bodies m | _ => Forall2 (refers m) bs ids end.
Definition bodies_known (m : mjmodel) (c : comp) : Prop :=
  match a_ext (c_at c) with
  | XBarrier _ (BSelf s) => (exists ids, lists_bodies m (sc_bodies s) ids) /\ exists ex, Forall2 (refers2 m) (sc_excl_raw s) ex
  | _ => True
  end.
Definition named (m : mjmodel) (o : objref) : Prop := exists i, has_object m (ob_type o) (ob_name o) i.

(** The component [c] as the user made and set it suits the robot [m], where it has
    [d] entries. *)
Definition suits (m : mjmodel) (c : comp) (d : nat) : Prop :=
  gain_fits (a_gain (c_at c)) d /\
  match a_ext (c_at c) with
  | XTask cost _ k =>
      cost_fits cost d /\
      match k with
      | TCom _ | TCustom _ => a_dim (c_at c) = Z.of_nat d
      | TPos o _ | TFrame o _ => a_dim (c_at c) = Z.of_nat d /\ named m o
      | TJoint j => mask_fits m (jt_final j) /\ d = List.length (selected m (jt_final j)) /\
                    match jt_target j with None => True | Some t => last_dim t = Ok d end
      end
  | XBarrier _ k =>
      match k with
      | BPos p => a_dim (c_at c) = Z.of_nat d /\ named m (pb_obj p)
      | BJoint j => mask_fits m (jb_final j) /\ d = 2 * List.length (selected m (jb_final j)) /\
                    (jb_qmin j = None \/ jb_qmax j = None -> List.length (selected m (jb_final j)) = n_scalar m)
      | BSelf s => exists ids ex ps, lists_bodies m (sc_bodies s) ids /\ Forall2 (refers2 m) (sc_excl_raw s) ex /\ checks_exactly m ids ex ps /\
                    (if (sc_n s =? -1)%Z then d = List.length ps else sc_n s = Z.of_nat d)
      | BCustom _ => a_dim (c_at c) = Z.of_nat d
      end
  | XConstraint _ _ soft k =>
      match soft with None => True | Some t => cost_fits t d end /\
      match k with
      | CModelEq => Forall eq_supported (m_eq_type m) /\ d = eq_total m
      | CCustom _ => a_dim (c_at c) = Z.of_nat d
      end
  end.

(** Nothing is missing for compiling [c] with [d] entries. *)
Definition complete (c : comp) (d : nat) : Prop :=
  a_dim (c_at c) = Z.of_nat d /\ a_model (c_at c) <> None /\ gain_fits (a_gain (c_at c)) d /\
  match a_ext (c_at c) with
  | XTask cost _ k => cost_fits cost d /\ match k with TJoint j => jt_target j <> None /\ jt_qidx j <> None | _ => True end
  | XBarrier _ k =>
      match k with
      | BPos p => ob_id (pb_obj p) <> (-1)%Z
      | BJoint j => jb_qmin j <> None /\ jb_qmax j <> None /\ jb_qidx j <> None
      | BSelf s => sc_pairs s <> None
      | BCustom _ => True
      end
  | XConstraint _ _ soft _ => match soft with None => True | Some t => cost_fits t d end
  end.

(** [component.update_model(m)] succeeds and the component compiles to [d] entries. *)
Definition usable (m : mjmodel) (c : comp) (d : nat) : Prop :=
  fst (update_model m c) = Ok tt /\ exists j, compiles (snd (update_model m c)) j /\ j_dim j = Z.of_nat d.

(** Every call of the program succeeds. *)
Definition runs (os : list wop) (w : world) : Prop :=
  forall k o, nth_error os k = Some o -> exists r, fst (step o (run (firstn k os) w)) = Ok r.
(** The documented way to set up a problem: make it, make the components, add them. *)
Definition setup (m : mjmodel) (lo hi : tensor) (cs : list comp) : list wop :=
  WNewProblem m lo hi :: map WNewComp cs ++ map (WAdd 0) (seq 0 (List.length cs)).
Definition limit_fits (m : mjmodel) (t : tensor) : Prop := t_shape t = [] \/ t_shape t = [m_nv m].

(** Gain and cost as they are now. *)
Definition weights_fit (c : comp) (d : nat) : Prop :=
  gain_fits (a_gain (c_at c)) d /\ match a_ext (c_at c) with XTask cost _ _ => cost_fits cost d | _ => True end.
(** What a control loop does between two compilations: assign targets, bounds, velocity
    limits and switches, look things up, compile; not gains or costs, and no calls that
    bind models or change the set of components.  Any of these calls may fail. *)
Definition steering (o : wop) : Prop :=
  tuning_step o /\ match o with WCop _ (OpGain _) | WCop _ (OpCost _) => False | _ => True end.

(** Targets and bounds of [c] are plain vectors (for a frame: one pose; for joint bounds:
    one entry per limited joint), and its object has a pose. *)
Definition plain (m : mjmodel) (c : comp) : Prop :=
  match a_ext (c_at c) with
  | XTask _ _ (TCom t) => is_vec t
  | XTask _ _ (TPos o t) => has_pose (ob_type o) /\ is_vec t
  | XTask _ _ (TFrame o t) => has_pose (ob_type o) /\ vec_of_length 7 t
  | XTask _ _ (TJoint j) => forall t, jt_target j = Some t -> is_vec t
  | XBarrier _ (BPos p) => has_pose (ob_type (pb_obj p)) /\ is_vec (pb_min p) /\ is_vec (pb_max p)
  | XBarrier _ (BJoint j) =>
      forall t, jb_qmin j = Some t \/ jb_qmax j = Some t -> vec_of_length (List.length (selected m (jb_final j))) t
  | _ => True
  end.
(** Assignments of plain vectors. *)
Definition plain_call (o : wop) : Prop :=
  match o with
  | WCop _ (OpTargetCom t) | WCop _ (OpTargetPos t) | WCop _ (OpTargetQ t) | WCop _ (OpQMin t) | WCop _ (OpQMax t)
  | WCop _ (OpTargetFrame (FArr t)) => is_vec t
  | WCop _ (OpTargetFrame (FSE3 t)) => vec_of_length 7 t
  | WCop _ (OpPMin t) | WCop _ (OpPMax t) => is_vec t \/ exists x, t = tscalar x
  | _ => True
  end.
(** Components whose value depends on more than the kinematics. *)
Definition needs_care (j : jaxc) : Prop :=
  match j_ext j with
  | JTask _ _ (JTCustom _) | JBarrier _ (JBCustom _) | JConstraint _ _ _ (JCCustom _)
  | JBarrier _ (JBSelf _ _ _) | JConstraint _ _ _ JCModelEq => True
  | _ => False
  end.

(** A component and its compiled form are of the same class. *)
Definition same_class (c : comp) (j : jaxc) : Prop :=
  match a_ext (c_at c), j_ext j with
  | XTask _ _ (TCom _), JTask _ _ (JTCom _) | XTask _ _ (TPos _ _), JTask _ _ (JTPos _ _ _) | XTask _ _ (TFrame _ _), JTask _ _ (JTFrame _ _ _)
  | XTask _ _ (TJoint _), JTask _ _ (JTJoint _ _) | XTask _ _ (TCustom _), JTask _ _ (JTCustom _)
  | XBarrier _ (BPos _), JBarrier _ (JBPos _ _ _ _ _) | XBarrier _ (BJoint _), JBarrier _ (JBJoint _ _ _) | XBarrier _ (BSelf _), JBarrier _ (JBSelf _ _ _)
  | XBarrier _ (BCustom _), JBarrier _ (JBCustom _)
  | XConstraint _ _ _ CModelEq, JConstraint _ _ _ JCModelEq | XConstraint _ _ _ (CCustom _), JConstraint _ _ _ (JCCustom _) => True
  | _, _ => False
  end.
