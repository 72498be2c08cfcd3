(** Vocabulary for array shapes of compiled components and programs. *)
From Verif Require Import Base Lin Mjx Typing Component Problem SpecComponent SpecJoint SpecHistory SpecProblem SpecCollision SpecTree SpecShape SpecContact SpecSelf SpecValue Rot Conf FrameJac Collide JaxComponents LocalIK.
Open Scope R_scope.

(** [j]: the compiled form of a component made by any public constructor, after any
    documented calls whose model bindings succeeded; array arguments are arrays. *)
Definition api_component (j : jaxc) : Prop :=
  exists c os, constructed c /\ wf_arrays (c_at c) /\ Forall (call_with sound_model) os /\ Forall wf_call os /\ binds_ok os c /\ compiles (history os c) j.

(** What is assumed of the libraries: kinematics returns data of the documented
    shape, and the Jacobian of a function of fixed output length exists and has the
    corresponding shape. *)
Definition sound_lib (L : lib) (m : mjmodel) : Prop :=
  (forall q, List.length q = m_nq m -> wf_data m (kin L m q)) /\
  (forall f x k, (forall x', List.length x' = List.length x -> exists y, f x' = Ok y /\ List.length y = k) ->
     exists J, l_jacrev L f x = Ok J /\ is_mat k (List.length x) J).

(** Targets, limits and user functions of the documented kind: targets and limits are
    plain vectors (no batch axes), the object has a pose, a joint barrier has one limit
    per joint, a self-collision barrier has a pair to check and not more distances to
    report than there are contacts, the simulator reports the rows of the equalities,
    and user functions return as many numbers as announced. *)
Definition is_vec (t : tensor) : Prop := exists v, t = tvec v.
Definition vec_of_length (n : nat) (t : tensor) : Prop := exists v, t = tvec v /\ List.length v = n.
Definition keeps_dim (j : jaxc) (f : mjdata -> list R) : Prop := forall d, wf_data (j_model j) d -> j_dim j = Z.of_nat (List.length (f d)).
Definition accepted (L : lib) (d : mjdata) (j : jaxc) : Prop :=
  match j_ext j with
  | JTask _ _ (JTCom t) | JTask _ _ (JTJoint t _) => is_vec t
  | JTask _ _ (JTPos _ ty t) => has_pose ty /\ is_vec t
  | JTask _ _ (JTFrame _ ty t) => has_pose ty /\ vec_of_length 7 t
  | JBarrier _ (JBPos _ ty lo hi _) => has_pose ty /\ is_vec lo /\ is_vec hi
  | JBarrier _ (JBJoint lo hi q) => vec_of_length (List.length q) lo /\ vec_of_length (List.length q) hi
  | JBarrier _ (JBSelf _ ps n) => ps <> [] /\ full_table (l_coll L) (j_model j) ps /\ exists l, all_contacts L (j_model j) d ps l /\ (n <= Z.of_nat (List.length l))%Z
  | JConstraint _ _ _ JCModelEq => List.length (flagged (d_efc_pos d) (d_efc_is_equality d)) = eq_total (j_model j)
  | JTask _ _ (JTCustom f) | JBarrier _ (JBCustom f) | JConstraint _ _ _ (JCCustom f) => keeps_dim j f
  end.

(** Value, Jacobian, vector gain and weight exist and have the announced dimension. *)
Definition shapes_fit (L : lib) (d : mjdata) (j : jaxc) : Prop :=
  exists n e J, j_dim j = Z.of_nat n /\ call L j d = Ok e /\ List.length e = n /\ jacobian L j d = Ok J /\ is_mat n (m_nv (j_model j)) J /\
  List.length (j_gain j) = n /\
  match j_ext j with JTask W _ _ | JConstraint _ _ W _ => is_mat n n W | JBarrier _ _ => True end.

(** A program that uses one consistent model, public constructors and documented calls
    with proper arrays, and in which no attempt to bind a component to a model fails. *)
Definition binding (o : wop) : Prop := match o with WAdd _ _ | WCop _ (OpModel _) => True | _ => False end.
Definition proper (o : wop) : Prop :=
  match o with WNewComp c => wf_arrays (c_at c) | WCop _ o => wf_call o | _ => True end.
Definition bindings_succeed (os : list wop) : Prop :=
  forall k o, nth_error os k = Some o -> binding o -> (exists r, fst (step o (state (firstn k os))) = Ok r) \/ snd (step o (state (firstn k os))) = state (firstn k os).
Definition tidy (m : mjmodel) (os : list wop) : Prop :=
  sound_model m /\ Forall legal os /\ Forall (single m) os /\ Forall wf_wop os /\ Forall proper os /\ bindings_succeed os.
