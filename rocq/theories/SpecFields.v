(** Vocabulary for C114: the fields of compiled components and problem data. *)
From Verif Require Import Base Lin Mjx Typing Component Problem Read JaxTree.
Open Scope string_scope.

(** The attribute with the same name as a field of the compiled class. *)
Definition field_named (x : attribute) : option string :=
  match x with
  | ADim => Some "dim" | AModel => Some "model" | AVectorGain => Some "vector_gain" | AGainFn => Some "gain_fn" | AMaskIdxs => Some "mask_idxs"
  | AMatrixCost => Some "matrix_cost" | ALmDamping => Some "lm_damping"
  | ATargetCom => Some "target_com" | ATargetPos => Some "target_pos" | ATargetFrame => Some "target_frame"
  | ATargetQ => Some "target_q" | AQMaskIdxs => Some "qmask_idxs"
  | ASafeDisplacementGain => Some "safe_displacement_gain" | AObjId => Some "obj_id" | AObjType => Some "obj_type"
  | ALimitTypeMaskIdxs => Some "limit_type_mask_idxs" | APMin => Some "p_min" | APMax => Some "p_max"
  | AQMin => Some "q_min" | AQMax => Some "q_max"
  | ADMinVec => Some "d_min_vec" | ACollisionPairs => Some "collision_pairs" | ANClosestPairs => Some "n_closest_pairs"
  | AActive => Some "active" | AHard => Some "hard_constraint" | ASoftCost => Some "soft_constraint_cost"
  | AName | AGain | AModified | AMask | AJax | ACost | AObjName | ALimitType | ADMin | ACollisionBodies => None
  end.
(** The value an attribute showed, as a Python value; a frame is an SE3 object around its
    seven numbers. *)
Definition shown_value (x : attribute) (v : value) : option py :=
  match v with
  | VModel (Some m) => Some (PModel m)
  | VArray t => match x with ATargetFrame => Some (PObj "SE3" [("wxyz_xyz", (false, PArr t))]) | _ => Some (PArr t) end
  | VVec l => Some (PArr (tvec l)) | VMat W => Some (PMat W) | VFun f => Some (PFun f) | VBool b => Some (PBool b)
  | VInt i => Some (PInt i) | VInts l => Some (PIdx l) | VReal r => Some (PReal r) | VObjType t => Some (PType t) | VPairs l => Some (PPairs l)
  | _ => None
  end.
(** Fields that JAX treats as constants: changing one means compiling again, and they cannot be
    batched. *)
Definition constant_fields : list string :=
  ["dim"; "gain_fn"; "mask_idxs"; "lm_damping"; "obj_id"; "obj_type"; "limit_type_mask_idxs"; "collision_pairs"; "n_closest_pairs"; "hard_constraint"].
