(** Vocabulary for C81: settings as independent registers. *)
From Verif Require Import Base Lin Mjx Typing Component.
Open Scope nat_scope.

(** The call returned without an exception. *)
Definition returned (o : cop) (c : comp) : bool := match fst (run_cop o c) with Ok _ => true | Err _ => false end.
(** [assigns o = Some x]: the call [o] asks for the value [x].  The value asked
    for by the last call that returned, [v] if there is none. *)
Fixpoint last_accepted {A} (assigns : cop -> option A) (os : list cop) (c : comp) (v : A) : A :=
  match os with
  | [] => v
  | o :: r => last_accepted assigns r (after o c)
                (match assigns o with Some x => if returned o c then x else v | None => v end)
  end.

(** What the setters ask for. *)
Definition asks_gain (o : cop) : option tensor := match o with OpGain t => Some t | _ => None end.
Definition asks_cost (o : cop) : option (option tensor) := match o with OpCost t => Some (Some t) | _ => None end.
Definition asks_target (o : cop) : option (option tensor) :=
  match o with OpTargetCom t | OpTargetPos t | OpTargetQ t | OpTargetFrame (FSE3 t) => Some (Some t) | _ => None end.
(** A position barrier with limit type [lt] and [n] selected axes ignores the limit
    its type does not include; a scalar is repeated for every axis. *)
Definition spread (n : nat) (t : tensor) : tensor := match t_shape t, t_data t with [], [x] => tvec (repeat x n) | _, _ => t end.
Definition asks_p_min (lt : limit_type) (n : nat) (o : cop) : option (option tensor) :=
  match o, lt with OpPMin t, (LMin | LBoth) => Some (Some (spread n t)) | _, _ => None end.
Definition asks_p_max (lt : limit_type) (n : nat) (o : cop) : option (option tensor) :=
  match o, lt with OpPMax t, (LMax | LBoth) => Some (Some (spread n t)) | _, _ => None end.
Definition asks_q_min (o : cop) : option (option tensor) := match o with OpQMin t => Some (Some t) | _ => None end.
Definition asks_q_max (o : cop) : option (option tensor) := match o with OpQMax t => Some (Some t) | _ => None end.
(** The call does not pass a frame target as a plain array (whose conversion is C32). *)
Definition no_array_frame (o : cop) : Prop := match o with OpTargetFrame (FArr _) => False | _ => True end.

(** What the component holds. *)
Definition gain_of (c : comp) : tensor := a_gain (c_at c).
Definition cost_of (c : comp) : option tensor := match a_ext (c_at c) with XTask t _ _ => Some t | _ => None end.
Definition target_of (c : comp) : option tensor :=
  match a_ext (c_at c) with
  | XTask _ _ (TCom t) | XTask _ _ (TPos _ t) | XTask _ _ (TFrame _ t) => Some t
  | XTask _ _ (TJoint j) => jt_target j
  | _ => None
  end.
Definition p_min_of (c : comp) : option tensor := match a_ext (c_at c) with XBarrier _ (BPos p) => Some (pb_min p) | _ => None end.
Definition p_max_of (c : comp) : option tensor := match a_ext (c_at c) with XBarrier _ (BPos p) => Some (pb_max p) | _ => None end.
Definition q_min_of (c : comp) : option tensor := match a_ext (c_at c) with XBarrier _ (BJoint j) => jb_qmin j | _ => None end.
Definition q_max_of (c : comp) : option tensor := match a_ext (c_at c) with XBarrier _ (BJoint j) => jb_qmax j | _ => None end.

(** Settings for which there is no setter: name, gain function, class, damping,
    safe-displacement gain, the object, the limit type, collision margin, and the
    constraint flags and cost. *)
Inductive class := KCom | KPos (name : string) (ty : objtype) | KFrame (name : string) (ty : objtype) | KJoint (mask : option (list Z))
  | KCustomT (f : mjdata -> list R)
  | KPosBarrier (name : string) (ty : objtype) (lt : limit_type) | KJointBarrier (mask : option (list Z))
  | KSelf (d_min : R) (excluded : list (cbody * cbody)) | KCustomB (f : mjdata -> list R)
  | KEquality (active hard : bool) (soft : option tensor) | KCustomC (active hard : bool) (soft : option tensor) (f : mjdata -> list R).
Definition class_of (c : comp) : class :=
  match a_ext (c_at c) with
  | XTask _ _ (TCom _) => KCom
  | XTask _ _ (TPos o _) => KPos (ob_name o) (ob_type o)
  | XTask _ _ (TFrame o _) => KFrame (ob_name o) (ob_type o)
  | XTask _ _ (TJoint j) => KJoint (jt_final j)
  | XTask _ _ (TCustom f) => KCustomT f
  | XBarrier _ (BPos p) => KPosBarrier (ob_name (pb_obj p)) (ob_type (pb_obj p)) (pb_lt p)
  | XBarrier _ (BJoint j) => KJointBarrier (jb_final j)
  | XBarrier _ (BSelf s) => KSelf (sc_dmin s) (sc_excl_raw s)
  | XBarrier _ (BCustom f) => KCustomB f
  | XConstraint a h s CModelEq => KEquality a h s
  | XConstraint a h s (CCustom f) => KCustomC a h s f
  end.
(** Damping of a task, safe-displacement gain of a barrier. *)
Definition extra_of (c : comp) : option R := match a_ext (c_at c) with XTask _ l _ => Some l | XBarrier s _ => Some s | _ => None end.
(** Activity, hardness and soft cost of a constraint. *)
Definition constraint_of (c : comp) : option (bool * bool * option tensor) :=
  match a_ext (c_at c) with XConstraint a h s _ => Some (a, h, s) | _ => None end.
(** A compiled component of the given class: the same kind of component on the same kind of
    object, with the user's function if there is one. *)
Definition compiled_class (k : class) (j : jaxc) : Prop :=
  match k, j_ext j with
  | KCom, JTask _ _ (JTCom _) => True
  | KPos _ ty, JTask _ _ (JTPos _ ty' _) => ty' = ty
  | KFrame _ ty, JTask _ _ (JTFrame _ ty' _) => ty' = ty
  | KJoint _, JTask _ _ (JTJoint _ _) => True
  | KCustomT f, JTask _ _ (JTCustom f') => f' = f
  | KPosBarrier _ ty _, JBarrier _ (JBPos _ ty' _ _ _) => ty' = ty
  | KJointBarrier _, JBarrier _ (JBJoint _ _ _) => True
  | KSelf d_min _, JBarrier _ (JBSelf ds _ n) => Z.of_nat (List.length ds) = j_dim j /\ Forall (fun x => x = d_min) ds
  | KCustomB f, JBarrier _ (JBCustom f') => f' = f
  | KEquality a h _, JConstraint a' h' _ JCModelEq => a' = a /\ h' = h
  | KCustomC a h _ f, JConstraint a' h' _ (JCCustom f') => a' = a /\ h' = h /\ f' = f
  | _, _ => False
  end.
(** Name, gain and gain function a component starts with. *)
Definition starts (name : string) (gain : tensor) (gf : option (R -> R)) (c : comp) : Prop :=
  a_name (c_at c) = name /\ gain_of c = gain /\ forall x, a_gain_fn (c_at c) x = match gf with Some f => f x | None => x end.
(** Number of axes a mask selects. *)
Definition n_sel (dflt : nat) (mk : option marr) : nat :=
  match mk with None => dflt | Some k => List.length (filter (fun x => negb (x =? 0)%Z) (mk_data k)) end.
(** Targets and limits of a compiled component. *)
Definition compiled_target (j : jaxc) : option tensor :=
  match j_ext j with
  | JTask _ _ (JTCom t) | JTask _ _ (JTPos _ _ t) | JTask _ _ (JTFrame _ _ t) | JTask _ _ (JTJoint t _) => Some t
  | _ => None
  end.
Definition compiled_lower (j : jaxc) : option tensor :=
  match j_ext j with JBarrier _ (JBPos _ _ lo _ _) | JBarrier _ (JBJoint lo _ _) => Some lo | _ => None end.
Definition compiled_upper (j : jaxc) : option tensor :=
  match j_ext j with JBarrier _ (JBPos _ _ _ hi _) | JBarrier _ (JBJoint _ hi _) => Some hi | _ => None end.
