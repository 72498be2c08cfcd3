(** Vocabulary used to state the component properties.  Everything here is a
    reading of the English statements; nothing refers to how the model works. *)
From Verif Require Import Base Lin Mjx Typing Component.
Open Scope R_scope.
Open Scope Z_scope.
Open Scope nat_scope.

(** [c] is an object returned by one of the public constructors. *)
Inductive constructed : comp -> Prop :=
| made_com_task name cost gain gf lm mk c : new_com_task name cost gain gf lm mk = Ok c -> constructed c
| made_position_task name cost gain on ty gf lm mk c :
    new_position_task name cost gain on ty gf lm mk = Ok c -> constructed c
| made_frame_task name cost gain on ty gf lm mk c :
    new_frame_task name cost gain on ty gf lm mk = Ok c -> constructed c
| made_joint_task name cost gain gf lm mk c : new_joint_task name cost gain gf lm mk = Ok c -> constructed c
| made_custom_task name cost gain gf lm mk d f c :
    new_custom_task name cost gain gf lm mk d f = Ok c -> constructed c
| made_position_barrier name gain on ty lo hi lt gf sdg mk c :
    new_position_barrier name gain on ty lo hi lt gf sdg mk = Ok c -> constructed c
| made_joint_barrier name gain gf sdg lo hi mk c :
    new_joint_barrier name gain gf sdg lo hi mk = Ok c -> constructed c
| made_self_collision name gain gf sdg dm bs ex n c :
    new_self_collision name gain gf sdg dm bs ex n = Ok c -> constructed c
| made_custom_barrier name gain gf sdg mk d f c :
    new_custom_barrier name gain gf sdg mk d f = Ok c -> constructed c
| made_model_equality name gain hard soft c : new_model_equality name gain hard soft = Ok c -> constructed c
| made_custom_constraint name gain mk hard soft d f c :
    new_custom_constraint name gain mk hard soft d f = Ok c -> constructed c.

(** [c] can be obtained by constructing a component and then performing any
    operations on it (including ones that raise). *)
Definition reachable (c : comp) : Prop := exists c0 os, constructed c0 /\ c = history os c0.

(** The same attributes, but nothing cached and everything to be rebuilt. *)
Definition scratch (c : comp) : comp := mkC (c_at c) true None.

(** Values of the public attributes; [mask] and [mask_idxs] are read through
    their getters. *)
Definition same_public (c c' : comp) : Prop :=
  a_name (c_at c') = a_name (c_at c) /\ a_model (c_at c') = a_model (c_at c) /\
  a_gain (c_at c') = a_gain (c_at c) /\ a_gain_fn (c_at c') = a_gain_fn (c_at c) /\
  a_dim (c_at c') = a_dim (c_at c) /\ a_ext (c_at c') = a_ext (c_at c) /\
  fst (mask c') = fst (mask c) /\ fst (mask_idxs c') = fst (mask_idxs c).

(** The vector gain [v] a gain array [g] stands for in dimension [d]. *)
Definition gain_means (g : tensor) (d : nat) (v : list R) : Prop :=
  (exists x, g = mkT [] [x] /\ v = repeat x d) \/ (t_shape g = [d] /\ v = t_data g).

(** The [d] x [d] matrix [W] a cost array stands for, entry by entry. *)
Definition entry (W : mat) (i j : nat) : R := nth j (nth i W []) 0%R.
Definition cost_means (t : tensor) (d : nat) (W : mat) : Prop :=
  is_mat d d W /\
  ((exists x, t = mkT [] [x] /\ forall i j, i < d -> j < d -> entry W i j = if Nat.eqb i j then x else 0%R) \/
   (t_shape t = [d] /\ forall i j, i < d -> j < d -> entry W i j = if Nat.eqb i j then nth i (t_data t) 0%R else 0%R) \/
   (t_shape t = [d; d] /\ forall i j, i < d -> j < d -> entry W i j = nth (i * d + j) (t_data t) 0%R)).

(** [idx] enumerates the non-zero positions of [m] in increasing order. *)
Definition selects (m : list Z) (idx : list Z) : Prop :=
  StronglySorted Z.lt idx /\
  forall i, In i idx <-> (0 <= i < Z.of_nat (List.length m))%Z /\ nth (Z.to_nat i) m 0%Z <> 0%Z.

(** Kind-specific fields of the compiled component, read off the attributes. *)
Inductive ext_published (a : attrs) : jext -> Prop :=
| pub_com cost lm t W : a_ext a = XTask cost lm (TCom t) -> matrix_cost a = Ok W ->
    ext_published a (JTask W lm (JTCom t))
| pub_pos cost lm o t W : a_ext a = XTask cost lm (TPos o t) -> matrix_cost a = Ok W ->
    ext_published a (JTask W lm (JTPos (ob_id o) (ob_type o) t))
| pub_frame cost lm o t W : a_ext a = XTask cost lm (TFrame o t) -> matrix_cost a = Ok W ->
    ext_published a (JTask W lm (JTFrame (ob_id o) (ob_type o) t))
| pub_joint cost lm fm t q W : a_ext a = XTask cost lm (TJoint (mkJT fm (Some t) (Some q))) -> matrix_cost a = Ok W ->
    ext_published a (JTask W lm (JTJoint t q))
| pub_custom_t cost lm f W : a_ext a = XTask cost lm (TCustom f) -> matrix_cost a = Ok W ->
    ext_published a (JTask W lm (JTCustom f))
| pub_pbar sdg o lt li lo hi : a_ext a = XBarrier sdg (BPos (mkPB o lt li lo hi)) -> ob_id o <> (-1)%Z ->
    ext_published a (JBarrier sdg (JBPos (ob_id o) (ob_type o) lo hi li))
| pub_jbar sdg fm lo hi q : a_ext a = XBarrier sdg (BJoint (mkJB fm (Some lo) (Some hi) (Some q))) ->
    ext_published a (JBarrier sdg (JBJoint lo hi q))
| pub_self sdg dm bs er ex ps n : a_ext a = XBarrier sdg (BSelf (mkSC dm bs er ex (Some ps) n)) -> (0 <= a_dim a)%Z ->
    ext_published a (JBarrier sdg (JBSelf (repeat dm (Z.to_nat (a_dim a))) ps n))
| pub_custom_b sdg f : a_ext a = XBarrier sdg (BCustom f) -> ext_published a (JBarrier sdg (JBCustom f))
| pub_eq act hard soft W : a_ext a = XConstraint act hard soft CModelEq -> soft_constraint_cost a = Ok W ->
    ext_published a (JConstraint act hard W JCModelEq)
| pub_custom_c act hard soft f W : a_ext a = XConstraint act hard soft (CCustom f) -> soft_constraint_cost a = Ok W ->
    ext_published a (JConstraint act hard W (JCCustom f)).

(** The compiled component [j] carries exactly the public attributes of [c]. *)
Definition published (c : comp) (j : jaxc) : Prop :=
  a_dim (c_at c) <> (-1)%Z /\ j_dim j = a_dim (c_at c) /\
  a_model (c_at c) = Some (j_model j) /\
  vector_gain (c_at c) = Ok (j_gain j) /\
  j_gain_fn j = a_gain_fn (c_at c) /\
  fst (mask_idxs c) = Ok (j_mask_idxs j) /\
  ext_published (c_at c) (j_ext j).

(** Calls through the documented API only (no raw attribute assignment). *)
Definition api_op (o : cop) : Prop := match o with OpAssign _ => False | _ => True end.

(** Every model binding of the history succeeded. *)
Fixpoint binds_ok (os : list cop) (c : comp) : Prop :=
  match os with
  | [] => True
  | o :: r => (match o with OpModel m => fst (update_model m c) = Ok tt | _ => True end) /\ binds_ok r (after o c)
  end.

(** The model has an object of this type under this name, with index [i]. *)
Definition has_object (m : mjmodel) (ty : objtype) (s : string) (i : Z) : Prop := In (ty, s, i) (m_names m).
(** Names are unique per type and ids are indices. *)
Definition wf_names (m : mjmodel) : Prop :=
  (forall ty s i, In (ty, s, i) (m_names m) -> (0 <= i)%Z) /\
  (forall ty s i i', In (ty, s, i) (m_names m) -> In (ty, s, i') (m_names m) -> i = i').

(** The object a component refers to, if it is an object component. *)
Definition object_of (a : attrs) : option objref :=
  match a_ext a with
  | XTask _ _ (TPos o _) | XTask _ _ (TFrame o _) => Some o
  | XBarrier _ (BPos p) => Some (pb_obj p)
  | _ => None
  end.

(** [c] was made by a public constructor that received the mask argument [mk];
    [d] is the dimension the component has without a mask. *)
Inductive takes_mask : option marr -> nat -> comp -> Prop :=
| tm_com name cost gain gf lm mk c : new_com_task name cost gain gf lm mk = Ok c -> takes_mask mk 3 c
| tm_position name cost gain on ty gf lm mk c :
    new_position_task name cost gain on ty gf lm mk = Ok c -> takes_mask mk 3 c
| tm_frame name cost gain on ty gf lm mk c :
    new_frame_task name cost gain on ty gf lm mk = Ok c -> takes_mask mk 6 c
| tm_custom_task name cost gain gf lm mk d f c :
    new_custom_task name cost gain gf lm mk (Z.of_nat d) f = Ok c -> takes_mask mk d c
| tm_custom_barrier name gain gf sdg mk d f c :
    new_custom_barrier name gain gf sdg mk (Z.of_nat d) f = Ok c -> takes_mask mk d c
| tm_custom_constraint name gain mk hard soft d f c :
    new_custom_constraint name gain mk hard soft (Z.of_nat d) f = Ok c -> takes_mask mk d c
| tm_position_barrier name gain on ty lo hi lt gf sdg k c :
    new_position_barrier name gain on ty lo hi lt gf sdg (Some k) = Ok c -> takes_mask (Some k) 3 c.
