(** Vocabulary for C111: looking at a component. *)
From Verif Require Import Base Lin Mjx Typing Component SpecComponent SpecSettings Read.
Open Scope nat_scope.

(** A documented call that is not itself a look. *)
Definition is_call (o : cop) : Prop :=
  match o with OpAssign _ | OpReadMask | OpReadMaskIdxs | OpReadJax => False | _ => True end.
Definition public (u : use) : Prop := match u with Do o => is_call o | Look _ => True end.

(** The calls among the uses, in order. *)
Fixpoint calls (us : list use) : list cop :=
  match us with [] => [] | Do o :: r => o :: calls r | Look _ :: r => calls r end.
(** What the calls answered: returned, or the exception. *)
Fixpoint answers (us : list use) (c : comp) : list (res unit) :=
  match us with
  | [] => []
  | Do o :: r => fst (run_cop o c) :: answers r (use_once c (Do o))
  | Look x :: r => answers r (use_once c (Look x))
  end.
(** What a look at the attribute shows. *)
Definition shows (c : comp) (x : attribute) : res value := fst (get x c).

(** The attributes a class defines, beside those every component has. *)
Definition common (x : attribute) : bool :=
  match x with
  | AName | AModel | AGain | AVectorGain | AGainFn | AModified | ADim | AMask | AMaskIdxs | AJax => true
  | _ => false
  end.
Definition of_task (x : attribute) : bool := match x with ACost | AMatrixCost | ALmDamping => true | _ => false end.
Definition of_object (x : attribute) : bool := match x with AObjName | AObjType | AObjId => true | _ => false end.
Definition of_constraint (x : attribute) : bool := match x with AActive | AHard | ASoftCost => true | _ => false end.
Definition defined (k : class) (x : attribute) : bool :=
  (common x ||
  match k with
  | KCom => of_task x || match x with ATargetCom => true | _ => false end
  | KPos _ _ => of_task x || of_object x || match x with ATargetPos => true | _ => false end
  | KFrame _ _ => of_task x || of_object x || match x with ATargetFrame => true | _ => false end
  | KJoint _ => of_task x || match x with ATargetQ | AQMaskIdxs => true | _ => false end
  | KCustomT _ => of_task x
  | KPosBarrier _ _ _ => of_object x || match x with ASafeDisplacementGain | ALimitType | ALimitTypeMaskIdxs | APMin | APMax => true | _ => false end
  | KJointBarrier _ => match x with ASafeDisplacementGain | AQMin | AQMax | AQMaskIdxs => true | _ => false end
  | KSelf _ _ => match x with ASafeDisplacementGain | ADMin | ADMinVec | ACollisionBodies | ACollisionPairs | ANClosestPairs => true | _ => false end
  | KCustomB _ => match x with ASafeDisplacementGain => true | _ => false end
  | KEquality _ _ _ | KCustomC _ _ _ _ => of_constraint x
  end)%bool.

(** The only class whose mask is not settled by its constructor or by each binding. *)
Definition is_equality (c : comp) : Prop := exists a h s, class_of c = KEquality a h s.

(** A limit update that the class ignores with a warning. *)
Definition ignored (c : comp) (o : cop) : Prop :=
  (exists n ty t, class_of c = KPosBarrier n ty LMax /\ o = OpPMin t) \/
  (exists n ty t, class_of c = KPosBarrier n ty LMin /\ o = OpPMax t).
(** None of the uses assigned anything: looks, rejected calls that are not bindings, and
    ignored limit updates. *)
Fixpoint quiet (us : list use) (c : comp) : Prop :=
  match us with
  | [] => True
  | u :: r =>
      match u with
      | Look _ => True
      | Do (OpModel _) => False
      | Do o => is_ok (fst (run_cop o c)) = false \/ ignored c o
      end /\ quiet r (use_once c u)
  end.

(** Some call of the list matching [p] returned. *)
Fixpoint accepted_call (p : cop -> bool) (os : list cop) (c : comp) : bool :=
  match os with [] => false | o :: r => (p o && returned o c) || accepted_call p r (after o c) end.
Definition is_bind (o : cop) : bool := match o with OpModel _ => true | _ => false end.
Definition is_set_q (o : cop) : bool := match o with OpTargetQ _ => true | _ => false end.
Definition is_set_q_min (o : cop) : bool := match o with OpQMin _ => true | _ => false end.
Definition is_set_q_max (o : cop) : bool := match o with OpQMax _ => true | _ => false end.
(** The model of the last binding attempted, if any. *)
Fixpoint last_model (os : list cop) (m : option mjmodel) : option mjmodel :=
  match os with [] => m | OpModel m' :: r => last_model r (Some m') | _ :: r => last_model r m end.

(** Attributes that can always be read, and the class of those every binding answers for. *)
Definition unconditional (x : attribute) : bool :=
  match x with
  | AName | AModel | AGain | AGainFn | AModified | ACost | ALmDamping | ATargetCom | ATargetPos | ATargetFrame
  | ASafeDisplacementGain | AObjName | AObjType | ALimitType | ALimitTypeMaskIdxs | APMin | APMax
  | ADMin | ACollisionBodies | ANClosestPairs | AActive | AHard => true
  | _ => false
  end.
Definition object_class (k : class) : option (string * objtype) :=
  match k with KPos n ty | KFrame n ty | KPosBarrier n ty _ => Some (n, ty) | _ => None end.
Definition barrier_class (k : class) : bool :=
  match k with KPosBarrier _ _ _ | KJointBarrier _ | KSelf _ _ | KCustomB _ => true | _ => false end.
(** The calls that give a value to target_q, q_min and q_max. *)
Definition sets_target_q (o : cop) : bool := (is_set_q o || is_bind o)%bool.
Definition sets_q_min (o : cop) : bool := (is_set_q_min o || is_bind o)%bool.
Definition sets_q_max (o : cop) : bool := (is_set_q_max o || is_bind o)%bool.
Definition target_name (k : class) : option attribute :=
  match k with KCom => Some ATargetCom | KPos _ _ => Some ATargetPos | KFrame _ _ => Some ATargetFrame | KJoint _ => Some ATargetQ | _ => None end.
Definition asks_model (o : cop) : option (option mjmodel) := match o with OpModel m => Some (Some m) | _ => None end.

(** The compiled component [j] is what the attributes of [c] show. *)
Definition carries (c : comp) (j : jaxc) : Prop :=
  shows c ADim = Ok (VInt (j_dim j)) /\ shows c AModel = Ok (VModel (Some (j_model j))) /\
  shows c AVectorGain = Ok (VVec (j_gain j)) /\ shows c AGainFn = Ok (VFun (j_gain_fn j)) /\
  shows c AMaskIdxs = Ok (VInts (j_mask_idxs j)) /\
  match j_ext j with
  | JTask W lm k =>
      shows c AMatrixCost = Ok (VMat W) /\ shows c ALmDamping = Ok (VReal lm) /\
      match k with
      | JTCom t => shows c ATargetCom = Ok (VArray t)
      | JTPos i ty t => shows c AObjId = Ok (VInt i) /\ shows c AObjType = Ok (VObjType ty) /\ shows c ATargetPos = Ok (VArray t)
      | JTFrame i ty t => shows c AObjId = Ok (VInt i) /\ shows c AObjType = Ok (VObjType ty) /\ shows c ATargetFrame = Ok (VArray t)
      | JTJoint t q => shows c ATargetQ = Ok (VArray t) /\ shows c AQMaskIdxs = Ok (VInts q)
      | JTCustom _ => True
      end
  | JBarrier s k =>
      shows c ASafeDisplacementGain = Ok (VReal s) /\
      match k with
      | JBPos i ty lo hi li =>
          shows c AObjId = Ok (VInt i) /\ shows c AObjType = Ok (VObjType ty) /\ shows c APMin = Ok (VArray lo) /\
          shows c APMax = Ok (VArray hi) /\ shows c ALimitTypeMaskIdxs = Ok (VInts li)
      | JBJoint lo hi q => shows c AQMin = Ok (VArray lo) /\ shows c AQMax = Ok (VArray hi) /\ shows c AQMaskIdxs = Ok (VInts q)
      | JBSelf dv ps n => shows c ADMinVec = Ok (VVec dv) /\ shows c ACollisionPairs = Ok (VPairs ps) /\ shows c ANClosestPairs = Ok (VInt n)
      | JBCustom _ => True
      end
  | JConstraint a h W _ => shows c AActive = Ok (VBool a) /\ shows c AHard = Ok (VBool h) /\ shows c ASoftCost = Ok (VMat W)
  end.
