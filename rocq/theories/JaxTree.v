(** Compiled components and problem data as Python objects and JAX pytrees:
    components/_base.py:48-56 (copy_and_set) and problem.py:198-204
    (set_vmap_dimension). *)
From Verif Require Import Base Lin Mjx Typing Component Problem.
Open Scope nat_scope.

(** Python values.  A dataclass instance lists its fields in order; a field marked
    [true] is declared [jdc.Static], the others are children of the pytree.
    [PModel]: an mjx.Model, whose own array fields are not looked into. *)
Inductive py :=
| PNone | PInt (z : Z) | PReal (x : R) | PBool (b : bool) | PIdx (l : list Z)
| PArr (t : tensor) | PMat (M : mat) | PFun (f : R -> R) | PUser (f : mjdata -> list R)
| PType (t : objtype) | PPairs (l : list (Z * Z)) | PModel (m : mjmodel)
| PObj (cls : string) (fields : list (string * (bool * py)))
| PDict (entries : list (string * py)).

(** ** Fields of the dataclasses, in declaration order: components/_base.py:29-33,
    tasks/_base.py:37-38, _com_task.py:45, _obj_task.py:32-33,
    _obj_position_task.py:42, _obj_frame_task.py:47, _joint_task.py:40-41,
    barriers/_base.py:32, _obj_barrier.py:39-40, _obj_position_barrier.py:41-43,
    _joint_barrier.py:37-39, _self_collision_barrier.py:44-46,
    constraints/_base.py:23-25.  jaxlie's SE3 is a dataclass with one array. *)
Definition dyn (n : string) (v : py) : string * (bool * py) := (n, (false, v)).
Definition sta (n : string) (v : py) : string * (bool * py) := (n, (true, v)).
Open Scope string_scope.
Definition base_fields (j : jaxc) : list (string * (bool * py)) :=
  [sta "dim" (PInt (j_dim j)); dyn "model" (PModel (j_model j)); dyn "vector_gain" (PArr (tvec (j_gain j)));
   sta "gain_fn" (PFun (j_gain_fn j)); sta "mask_idxs" (PIdx (j_mask_idxs j))].
Definition obj_fields (i : Z) (ty : objtype) := [sta "obj_id" (PInt i); sta "obj_type" (PType ty)].
Definition task_fields (k : jtkind) : string * list (string * (bool * py)) :=
  match k with
  | JTCom t => ("JaxComTask", [dyn "target_com" (PArr t)])
  | JTPos i ty t => ("JaxPositionTask", (obj_fields i ty ++ [dyn "target_pos" (PArr t)])%list)
  | JTFrame i ty t => ("JaxFrameTask", (obj_fields i ty ++ [dyn "target_frame" (PObj "SE3" [dyn "wxyz_xyz" (PArr t)])])%list)
  | JTJoint t q => ("JaxJointTask", [dyn "target_q" (PArr t); dyn "qmask_idxs" (PIdx q)])
  | JTCustom f => ("UserTask", [sta "function" (PUser f)])
  end.
Definition barrier_fields (k : jbkind) : string * list (string * (bool * py)) :=
  match k with
  | JBPos i ty lo hi li => ("JaxPositionBarrier", (obj_fields i ty ++ [dyn "p_min" (PArr lo); dyn "p_max" (PArr hi); sta "limit_type_mask_idxs" (PIdx li)])%list)
  | JBJoint lo hi q => ("JaxJointBarrier", [dyn "q_min" (PArr lo); dyn "q_max" (PArr hi); dyn "qmask_idxs" (PIdx q)])
  | JBSelf dv ps n => ("JaxSelfCollisionBarrier", [dyn "d_min_vec" (PArr (tvec dv)); sta "collision_pairs" (PPairs ps); sta "n_closest_pairs" (PInt n)])
  | JBCustom f => ("UserBarrier", [sta "function" (PUser f)])
  end.
Definition constraint_fields (k : jckind) : string * list (string * (bool * py)) :=
  match k with JCModelEq => ("JaxModelEqualityConstraint", []) | JCCustom f => ("UserConstraint", [sta "function" (PUser f)]) end.
Definition component_object (j : jaxc) : py :=
  match j_ext j with
  | JTask W lm k => let '(c, fs) := task_fields k in PObj c (base_fields j ++ [dyn "matrix_cost" (PMat W); sta "lm_damping" (PReal lm)] ++ fs)%list
  | JBarrier s k => let '(c, fs) := barrier_fields k in PObj c (base_fields j ++ [dyn "safe_displacement_gain" (PReal s)] ++ fs)%list
  | JConstraint a h W k => let '(c, fs) := constraint_fields k in
      PObj c (base_fields j ++ [dyn "active" (PBool a); sta "hard_constraint" (PBool h); dyn "soft_constraint_cost" (PMat W)] ++ fs)%list
  end.
(** problem.py:17-33 *)
Definition data_object (pd : jdata) : py :=
  PObj "JaxProblemData" [dyn "model" (PModel (jd_model pd)); dyn "v_min" (PArr (tvec (jd_vmin pd))); dyn "v_max" (PArr (tvec (jd_vmax pd)));
                         dyn "components" (PDict (map (fun e => (fst e, component_object (snd e))) (jd_comps pd)))].
Close Scope string_scope.

(** ** copy_and_set.  Objects live in a heap; the result is a new object. *)
(** [d | kwargs] on insertion-ordered dicts. *)
Fixpoint dict_set {A} (n : string) (v : A) (d : list (string * A)) : list (string * A) :=
  match d with
  | [] => [(n, v)]
  | (k, w) :: r => if String.eqb n k then (k, v) :: r else (k, w) :: dict_set n v r
  end.
Definition dict_or {A} (d kw : list (string * A)) : list (string * A) := fold_left (fun acc e => dict_set (fst e) (snd e) acc) kw d.
(** [cls( **args)] of a dataclass: TypeError unless the arguments are exactly the fields. *)
Definition construct (cls : string) (decl : list (string * bool)) (args : list (string * py)) : res py :=
  if forallb (fun e => existsb (String.eqb (fst e)) (map fst decl)) args then
    do fs <- mapM (fun f : string * bool => match assoc (fst f) args with Some v => Ok (fst f, (snd f, v)) | None => Err TypeError end) decl;
    Ok (PObj cls fs)
  else Err TypeError.
(** components/_base.py:48-56; [h !! i] is [self]. *)
Definition copy_and_set (i : nat) (kw : list (string * py)) (h : list py) : res nat * list py :=
  match nth_error h i with
  | Some (PObj cls fs) =>
      let args := dict_or (map (fun f => (fst f, snd (snd f))) fs) kw in
      match construct cls (map (fun f => (fst f, fst (snd f))) fs) args with
      | Ok o => (Ok (List.length h), h ++ [o])
      | Err e => (Err e, h)
      end
  | _ => (Err AttributeError, h)
  end.

(** ** set_vmap_dimension.  [jax.tree_util.tree_map(lambda x: None, data)]: static
    fields are kept, every leaf becomes None; dictionaries are rebuilt with their
    keys sorted (jaxlib pytree).  The model of the robot counts as one leaf. *)
Fixpoint sinsert {A} (e : string * A) (l : list (string * A)) : list (string * A) :=
  match l with [] => [e] | f :: r => if String.leb (fst e) (fst f) then e :: l else f :: sinsert e r end.
Definition ssort {A} (l : list (string * A)) : list (string * A) := fold_right sinsert [] l.
Fixpoint blank (p : py) : py :=
  match p with
  | PObj c fs => PObj c (map (fun f : string * (bool * py) => (fst f, (fst (snd f), if fst (snd f) then snd (snd f) else blank (snd (snd f))))) fs)
  | PDict es => PDict (ssort (map (fun e : string * py => (fst e, blank (snd e))) es))
  | _ => PNone
  end.
(** problem.py:198-204; the context manager copies the tree and allows assignments. *)
Definition set_vmap_dimension (pi : nat) (w : world) : res py * world :=
  match compile pi w with
  | (Ok (OData pd), w') => (Ok (blank (data_object pd)), w')
  | (Ok _, w') => (Err TypeError, w')
  | (Err e, w') => (Err e, w')
  end.

(** What a jitted or vmapped function receives for problem data: the pytree is taken
    apart and rebuilt, so the component dictionary comes back with sorted keys. *)
Definition under_jit (pd : jdata) : jdata := mkJD (jd_model pd) (jd_vmin pd) (jd_vmax pd) (ssort (jd_comps pd)).

(** Assignment [obj.a.b["c"].d = v] along a path of attributes and keys. *)
Fixpoint assign (path : list string) (v : py) (p : py) : res py :=
  match path with
  | [] => Ok v
  | n :: r =>
      match p with
      | PObj c fs => match assoc n fs with
                     | Some (s, x) => do x' <- assign r v x; Ok (PObj c (dict_set n (s, x') fs))
                     | None => Err AttributeError
                     end
      | PDict es => match assoc n es with
                    | Some x => do x' <- assign r v x; Ok (PDict (dict_set n x' es))
                    | None => Err KeyError
                    end
      | _ => Err AttributeError
      end
  end.
