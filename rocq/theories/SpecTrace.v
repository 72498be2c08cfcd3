(** Vocabulary for C91: when a jitted function has to be traced again. *)
From Verif Require Import Base Lin Mjx Typing Component Problem SpecComponent SpecHistory SpecCollision SpecProblem SpecSettings JaxTree.
Open Scope nat_scope.

(** What jax.jit compares between two calls: the classes, keys and static fields, and
    the shapes of the arrays, but not their entries.  A Python number or flag is an
    array without axes.  The robot model counts as one value. *)
Fixpoint signature (p : py) : py :=
  match p with
  | PObj c fs => PObj c (map (fun f : string * (bool * py) => (fst f, (fst (snd f), if fst (snd f) then snd (snd f) else signature (snd (snd f))))) fs)
  | PDict es => PDict (ssort (map (fun e : string * py => (fst e, signature (snd e))) es))
  | PArr t => PIdx (map Z.of_nat (t_shape t))
  | PMat M => PIdx (Z.of_nat (List.length M) :: map (fun r => Z.of_nat (List.length r)) M)
  | PIdx l => PIdx (map (fun _ => 0%Z) l)
  | PInt _ | PReal _ | PBool _ => PNone
  | _ => p
  end.
Definition traced_once (p p' : py) : Prop := signature p = signature p'.

(** Assignments to attributes that are no static fields. *)
Definition assign_active (b : bool) (a : attrs) : attrs :=
  match a_ext a with XConstraint _ h s k => set_a_ext a (XConstraint b h s k) | _ => a end.
Definition assign_safe_displacement_gain (x : R) (a : attrs) : attrs :=
  match a_ext a with XBarrier _ k => set_a_ext a (XBarrier x k) | _ => a end.
Definition assign_d_min (x : R) (a : attrs) : attrs :=
  match a_ext a with XBarrier s (BSelf k) => set_a_ext a (XBarrier s (BSelf (mkSC x (sc_bodies k) (sc_excl_raw k) (sc_excl k) (sc_pairs k) (sc_n k)))) | _ => a end.

(** Calls in a control loop: every setter and getter, and these assignments, but no
    binding of another model. *)
Inductive tuning : cop -> Prop :=
| tune_call o : no_bind o -> wf_call o -> tuning o
| tune_active b : tuning (OpAssign (assign_active b))
| tune_safe x : tuning (OpAssign (assign_safe_displacement_gain x))
| tune_d_min x : tuning (OpAssign (assign_d_min x)).
Definition tuning_step (o : wop) : Prop :=
  match o with
  | WCop _ o => tuning o
  | WVmin _ t | WVmax _ t => wf_tensor t
  | WCompile _ | WComponent _ _ | WTask _ _ | WBarrier _ _ => True
  | WNewComp _ | WNewProblem _ _ _ | WAdd _ _ | WRemove _ _ => False
  end.
(** A program of documented calls with proper arrays. *)
Definition documented (os : list wop) : Prop :=
  Forall legal os /\ Forall wf_wop os /\
  Forall (fun o => match o with WNewComp c => wf_arrays (c_at c) | WCop _ o => wf_call o | _ => True end) os.

(** Targets and limits of the same shape. *)
Definition same_shapes (j j' : jaxc) : Prop :=
  option_map t_shape (compiled_target j) = option_map t_shape (compiled_target j') /\
  option_map t_shape (compiled_lower j) = option_map t_shape (compiled_lower j') /\
  option_map t_shape (compiled_upper j) = option_map t_shape (compiled_upper j').
