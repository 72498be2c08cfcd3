(** Reading the public attributes of a component: the property getters of
    mjinx/components and the plain attributes beside them.

    A getter is a method like any other: [get x] returns the value or raises, and
    leaves the component as the code leaves it ([mask], [mask_idxs] and
    [jax_component] write private attributes on the way). *)
From Verif Require Import Base Lin Mjx Typing Component.
Open Scope nat_scope.

(** The public attributes.  Those of the class Component first, then those of
    its subclasses. *)
Inductive attribute :=
| AName | AModel | AGain | AVectorGain | AGainFn | AModified | ADim | AMask | AMaskIdxs | AJax
| ACost | AMatrixCost | ALmDamping
| ATargetCom | ATargetPos | ATargetFrame | ATargetQ
| ASafeDisplacementGain
| AObjName | AObjType | AObjId
| ALimitType | ALimitTypeMaskIdxs | APMin | APMax
| AQMin | AQMax | AQMaskIdxs
| ADMin | ADMinVec | ACollisionBodies | ACollisionPairs | ANClosestPairs
| AActive | AHard | ASoftCost.

(** What a getter can return.  [VModel None] is Python's None. *)
Inductive value :=
| VString (s : string) | VModel (m : option mjmodel) | VArray (t : tensor) | VVec (v : list R) | VMat (W : mat)
| VFun (f : R -> R) | VBool (b : bool) | VInt (i : Z) | VInts (l : list Z) | VReal (r : R) | VJax (j : jaxc)
| VObjType (t : objtype) | VLimit (t : limit_type) | VBodies (l : list cbody) | VPairs (l : list (Z * Z)).

Definition vmap_res {A} (f : A -> value) (r : res A) : res value := do x <- r; Ok (f x).
Definition via {A} (f : A -> value) (m : M A) : M value := mdo x <- m; ret (f x).

(** The object of an object task or barrier. *)
Definition get_obj (a : attrs) : res objref :=
  match a_ext a with
  | XTask _ _ (TPos o _) | XTask _ _ (TFrame o _) => Ok o
  | XBarrier _ (BPos p) => Ok (pb_obj p)
  | _ => Err AttributeError
  end.
Definition get_pbar (a : attrs) : res pbar_at :=
  match a_ext a with XBarrier _ (BPos p) => Ok p | _ => Err AttributeError end.
Definition get_jbar (a : attrs) : res jbar_at :=
  match a_ext a with XBarrier _ (BJoint j) => Ok j | _ => Err AttributeError end.

(** The getters.
    - _base.py:173-180 [modified], 182-189 [model], 208-215 [gain], 240-265
      [vector_gain], 267-274 [gain_fn], 276-283 [name], 285-297 [dim], 299-312
      [mask], 314-326 [mask_idxs], 337-353 [jax_component];
    - tasks/_base.py:105 [lm_damping], 109-117 [cost], 142-179 [matrix_cost];
    - _com_task.py:130-137 [target_com]; _obj_position_task.py:94-101 [target_pos];
      _obj_frame_task.py:131-138 [target_frame]; _joint_task.py:167-177 [target_q],
      204-213 [qmask_idxs];
    - _obj_task.py:130-155 and _obj_barrier.py:144-173 [obj_name], [obj_id], [obj_type]:
      only the barrier checks the id;
    - barriers/_base.py:110 [safe_displacement_gain];
    - _obj_position_barrier.py:157-178 [limit_type], [limit_type_mask_idxs], [p_min],
      214-221 [p_max];
    - _joint_barrier.py:124-137 [q_min], 162-175 [q_max], 248-257 [qmask_idxs];
    - _self_collision_barrier.py:159-164,281-287 [collision_bodies],
      [n_closest_pairs], [d_min], [collision_pairs], 289-303 [d_min_vec];
    - constraints/_base.py:98-99 [active], [hard_constraint], 102-133
      [soft_constraint_cost].
    A name a class does not define raises AttributeError, as does one whose
    private attribute has never been assigned. *)
Definition get (x : attribute) : M value :=
  match x with
  | AName => read (fun a => Ok (VString (a_name a)))
  | AModel => read (fun a => Ok (VModel (a_model a)))
  | AGain => read (fun a => Ok (VArray (a_gain a)))
  | AVectorGain => read (fun a => vmap_res VVec (vector_gain a))
  | AGainFn => read (fun a => Ok (VFun (a_gain_fn a)))
  | AModified => fun c => (Ok (VBool (c_modified c)), c)
  | ADim => read (fun a => vmap_res VInt (dim a))
  | AMask => via VInts mask
  | AMaskIdxs => via VInts mask_idxs
  | AJax => via VJax jax_component
  | ACost => read (fun a => match a_ext a with XTask t _ _ => Ok (VArray t) | _ => Err AttributeError end)
  | AMatrixCost =>
      read (fun a => match a_ext a with XTask _ _ _ => vmap_res VMat (matrix_cost a) | _ => Err AttributeError end)
  | ALmDamping => read (fun a => match a_ext a with XTask _ l _ => Ok (VReal l) | _ => Err AttributeError end)
  | ATargetCom => read (fun a => match a_ext a with XTask _ _ (TCom t) => Ok (VArray t) | _ => Err AttributeError end)
  | ATargetPos => read (fun a => match a_ext a with XTask _ _ (TPos _ t) => Ok (VArray t) | _ => Err AttributeError end)
  | ATargetFrame => read (fun a => match a_ext a with XTask _ _ (TFrame _ t) => Ok (VArray t) | _ => Err AttributeError end)
  | ATargetQ =>
      read (fun a => match a_ext a with
                     | XTask _ _ (TJoint j) => vmap_res VArray (opt ValueError (jt_target j))
                     | _ => Err AttributeError
                     end)
  | ASafeDisplacementGain =>
      read (fun a => match a_ext a with XBarrier s _ => Ok (VReal s) | _ => Err AttributeError end)
  | AObjName => read (fun a => do o <- get_obj a; Ok (VString (ob_name o)))
  | AObjType => read (fun a => do o <- get_obj a; Ok (VObjType (ob_type o)))
  | AObjId =>
      read (fun a => do o <- get_obj a;
                     match a_ext a with
                     | XBarrier _ _ => if (ob_id o =? -1)%Z then Err ValueError else Ok (VInt (ob_id o))
                     | _ => Ok (VInt (ob_id o))
                     end)
  | ALimitType => read (fun a => do p <- get_pbar a; Ok (VLimit (pb_lt p)))
  | ALimitTypeMaskIdxs => read (fun a => do p <- get_pbar a; Ok (VInts (pb_lt_idxs p)))
  | APMin => read (fun a => do p <- get_pbar a; Ok (VArray (pb_min p)))
  | APMax => read (fun a => do p <- get_pbar a; Ok (VArray (pb_max p)))
  | AQMin => read (fun a => do j <- get_jbar a; vmap_res VArray (opt ValueError (jb_qmin j)))
  | AQMax => read (fun a => do j <- get_jbar a; vmap_res VArray (opt ValueError (jb_qmax j)))
  | AQMaskIdxs =>
      read (fun a => match a_ext a with
                     | XTask _ _ (TJoint j) => vmap_res VInts (opt AttributeError (jt_qidx j))
                     | XBarrier _ (BJoint j) => vmap_res VInts (opt AttributeError (jb_qidx j))
                     | _ => Err AttributeError
                     end)
  | ADMin => read (fun a => do s <- self_of a; Ok (VReal (sc_dmin s)))
  | ADMinVec => read (fun a => do s <- self_of a; vmap_res VVec (d_min_vec a (sc_dmin s)))
  | ACollisionBodies => read (fun a => do s <- self_of a; Ok (VBodies (sc_bodies s)))
  | ACollisionPairs => read (fun a => do s <- self_of a; vmap_res VPairs (opt AttributeError (sc_pairs s)))
  | ANClosestPairs => read (fun a => do s <- self_of a; Ok (VInt (sc_n s)))
  | AActive => read (fun a => match a_ext a with XConstraint b _ _ _ => Ok (VBool b) | _ => Err AttributeError end)
  | AHard => read (fun a => match a_ext a with XConstraint _ b _ _ => Ok (VBool b) | _ => Err AttributeError end)
  | ASoftCost =>
      read (fun a => match a_ext a with
                     | XConstraint _ _ _ _ => vmap_res VMat (soft_constraint_cost a)
                     | _ => Err AttributeError
                     end)
  end.

(** One public use of a component: a call, or a look at an attribute. *)
Inductive use := Do (o : cop) | Look (x : attribute).
Definition run_use (u : use) : M unit := match u with Do o => run_cop o | Look x => ignore (get x) end.
Definition use_once (c : comp) (u : use) : comp := snd (run_use u c).
Definition uses (us : list use) (c : comp) : comp := fold_left use_once us c.
