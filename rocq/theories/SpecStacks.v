(** Vocabulary for C121: stacks of targets. *)
From Verif Require Import Base Lin Mjx Typing Component Problem SpecComponent SpecJoint SpecHistory SpecProblem SpecBatch SpecSetup.
Open Scope nat_scope.

(** The call gives the task [c], as the user made it, one target per lane: a centre of mass
    or a position with the task's number of entries, a pose of seven numbers, or one
    number per joint of the task. *)
Definition takes_stack (m : mjmodel) (N : nat) (c : comp) (o : cop) : Prop :=
  exists t, array_of o = Some t /\ wf_tensor t /\
  match o, a_ext (c_at c) with
  | OpTargetCom _, XTask _ _ (TCom _) | OpTargetPos _, XTask _ _ (TPos _ _) => exists d, a_dim (c_at c) = Z.of_nat d /\ t_shape t = [N; d]
  | OpTargetFrame _, XTask _ _ (TFrame _ _) => t_shape t = [N; 7]
  | OpTargetQ _, XTask _ _ (TJoint j) => t_shape t = [N; List.length (selected m (jt_final j))]
  | _, _ => False
  end.
(** A turn that gives such stacks to components of the list [cs], which the problem knows by
    their names. *)
Definition stack_turn (m : mjmodel) (N : nat) (cs : list comp) (ks : list call) : Prop :=
  Forall (fun k => exists c, nth_error cs (fst (fst k)) = Some c /\ snd (fst k) = a_name (c_at c) /\ takes_stack m N c (snd k)) ks.

(** A component made by its constructor with well-formed arrays, that suits the robot (gain,
    cost and masks have matching sizes and the named objects exist) and whose targets and
    bounds, if any, are plain vectors. *)
Definition ready (m : mjmodel) (c : comp) : Prop := constructed c /\ wf_arrays (c_at c) /\ (exists d, suits m c d) /\ plain m c.

(** An array with one row of [d] numbers per lane. *)
Definition stack_of (N d : nat) (t : tensor) : Prop := wf_tensor t /\ t_shape t = [N; d].

(** What one turn of examples/go2_squat.py assigns, and where its template gets axis 0: a
    pose of the base and a centre of mass for each lane.  Its four feet follow geoms. *)
Definition go2_turn (p : tensor * tensor) : list call := [(1, "body_orientation_task", OpTargetFrame (FSE3 (fst p))); (0, "com_task", OpTargetCom (snd p))]%string.
Definition go2_places : list (list string) := [["components"; "body_orientation_task"; "target_frame"]; ["components"; "com_task"; "target_com"]]%string.
Definition foot_task (m : mjmodel) (k g lm : R) (f : string) (c : comp) : Prop :=
  (exists i, has_object m OGeom f i) /\ new_frame_task (f ++ "_foot_task") (tscalar k) (tscalar g) f OGeom None lm (Some (mvec [1; 1; 1; 0; 0; 0]%Z)) = Ok c.
(** examples/cassie_alip.py: centre of mass, torso and both feet. *)
Definition alip_turn (p : (tensor * tensor) * (tensor * tensor)) : list call :=
  [(0, "com_task", OpTargetCom (fst (fst p))); (1, "torso_task", OpTargetFrame (FArr (snd (fst p)))); (3, "left_foot_task", OpTargetFrame (FArr (fst (snd p)))); (4, "right_foot_task", OpTargetFrame (FArr (snd (snd p))))]%string.
Definition alip_places : list (list string) :=
  [["components"; "com_task"; "target_com"]; ["components"; "torso_task"; "target_frame"]; ["components"; "left_foot_task"; "target_frame"]; ["components"; "right_foot_task"; "target_frame"]]%string.
(** examples/g1_heart.py: both arms. *)
Definition heart_turn (p : tensor * tensor) : list call := [(3, "left_arm_task", OpTargetFrame (FArr (fst p))); (4, "right_arm_task", OpTargetFrame (FArr (snd p)))]%string.
Definition heart_places : list (list string) := [["components"; "left_arm_task"; "target_frame"]; ["components"; "right_arm_task"; "target_frame"]]%string.
(** examples/local_ik_vmapped_output.py: the end effector. *)
Definition ee_turn (T : tensor) : list call := [(0, "ee_task"%string, OpTargetFrame (FArr T))].
Definition ee_place : list (list string) := [["components"; "ee_task"; "target_frame"]%string].
