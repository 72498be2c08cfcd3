(** Vocabulary for C96: control loops with every kind of component. *)
From Verif Require Import Base Lin Mjx Typing Component Problem SpecComponent SpecJoint SpecHistory SpecTree SpecShape SpecContact SpecValue SpecFit SpecTrace SpecSetup Conf JaxComponents LocalIK SpecMotion SpecQP SpecProblem SpecSolve SpecClosed.
Open Scope R_scope.

(** The calls made in some turns, each ending with the compilation. *)
Definition calls_of (turns : list (list wop)) : list wop := List.concat (map (fun os => os ++ [WCompile 0]) turns).
(** At data [d] some barrier of the problem does not depend on the velocity at all. *)
Definition idle_barrier (L : lib) (d : mjdata) (pd : jdata) : Prop :=
  exists j J, In j (comps_of pd) /\ is_barrier j = true /\ jacobian L j d = Ok J /\ frob2 J = 0.
(** Some velocity meets all limits, barriers and hard constraints in this turn. *)
Definition possible_turn (L : lib) (m : mjmodel) (t : vec * jdata * vec) : Prop :=
  let '(q, pd, _) := t in exists w, admissible L (update L m q) pd w.

(** Anything but a barrier, or a joint barrier on at least one joint. *)
Definition tame (m : mjmodel) (c : comp) : Prop :=
  match a_ext (c_at c) with
  | XBarrier _ (BJoint j) => selected m (jb_final j) <> []
  | XBarrier _ _ => False
  | _ => True
  end.
(** Not a hard constraint. *)
Definition soft_component (c : comp) : Prop := match a_ext (c_at c) with XConstraint _ true _ _ => False | _ => True end.
