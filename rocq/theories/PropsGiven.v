(** C113 (continued): the arguments of each constructor can be read back for the life of the object. *)
From Verif Require Import Base Lin Mjx Typing Component SpecComponent SpecHistory SpecSettings Read SpecRead SpecGiven Witness CompThms2 ReadFacts7.
Open Scope nat_scope.

Theorem C113_com_task_arguments name cost gain gf lm mk c : new_com_task name cost gain gf lm mk = Ok c ->
  given_task name cost gain gf lm c.
Proof. exact (given_com name cost gain gf lm mk c). Qed.
Print Assumptions C113_com_task_arguments.
(** Object tasks and barriers: also the object's name and type. *)
Theorem C113_position_task_arguments name cost gain on ty gf lm mk c : new_position_task name cost gain on ty gf lm mk = Ok c ->
  given_task name cost gain gf lm c /\ given_object c on ty.
Proof. exact (given_pos name cost gain on ty gf lm mk c). Qed.
Print Assumptions C113_position_task_arguments.
Theorem C113_frame_task_arguments name cost gain on ty gf lm mk c : new_frame_task name cost gain on ty gf lm mk = Ok c ->
  given_task name cost gain gf lm c /\ given_object c on ty.
Proof. exact (given_frame name cost gain on ty gf lm mk c). Qed.
Print Assumptions C113_frame_task_arguments.
Theorem C113_joint_task_arguments name cost gain gf lm mk c : new_joint_task name cost gain gf lm mk = Ok c ->
  given_task name cost gain gf lm c.
Proof. exact (given_joint name cost gain gf lm mk c). Qed.
Print Assumptions C113_joint_task_arguments.
Theorem C113_position_barrier_arguments name gain on ty lo hi lts gf sdg mk c :
  new_position_barrier name gain on ty lo hi lts gf sdg mk = Ok c ->
  given_barrier name gain gf sdg c /\ given_object c on ty /\
  exists lt, ((lts = "min" /\ lt = LMin) \/ (lts = "max" /\ lt = LMax) \/ (lts = "both" /\ lt = LBoth))%string /\ forever c ALimitType (VLimit lt).
Proof. exact (given_pbar name gain on ty lo hi lts gf sdg mk c). Qed.
Print Assumptions C113_position_barrier_arguments.
Theorem C113_joint_barrier_arguments name gain gf sdg lo hi mk c : new_joint_barrier name gain gf sdg lo hi mk = Ok c ->
  given_barrier name gain gf sdg c.
Proof. exact (given_jbar name gain gf sdg lo hi mk c). Qed.
Print Assumptions C113_joint_barrier_arguments.
(** [collision_bodies] and [n_closest_pairs] only start with what was given: binding may fill them in (C38, C40). *)
Theorem C113_self_collision_arguments name gain gf sdg dm bs er n c : new_self_collision name gain gf sdg dm bs er n = Ok c ->
  given_barrier name gain gf sdg c /\ forever c ADMin (VReal dm) /\ shows c ACollisionBodies = Ok (VBodies bs) /\ shows c ANClosestPairs = Ok (VInt n).
Proof. exact (given_self name gain gf sdg dm bs er n c). Qed.
Print Assumptions C113_self_collision_arguments.
Theorem C113_equality_arguments name gain hard soft c : new_model_equality name gain hard soft = Ok c ->
  given name gain None c /\ forever c AActive (VBool true) /\ forever c AHard (VBool hard).
Proof. exact (given_equality name gain hard soft c). Qed.
Print Assumptions C113_equality_arguments.
(** User-defined classes that pass their arguments on. *)
Theorem C113_custom_task_arguments name cost gain gf lm mk d f c : new_custom_task name cost gain gf lm mk d f = Ok c ->
  given_task name cost gain gf lm c.
Proof. exact (given_custom_task name cost gain gf lm mk d f c). Qed.
Print Assumptions C113_custom_task_arguments.
Theorem C113_custom_barrier_arguments name gain gf sdg mk d f c : new_custom_barrier name gain gf sdg mk d f = Ok c ->
  given_barrier name gain gf sdg c.
Proof. exact (given_custom_barrier name gain gf sdg mk d f c). Qed.
Print Assumptions C113_custom_barrier_arguments.
Theorem C113_custom_constraint_arguments name gain mk hard soft d f c : new_custom_constraint name gain mk hard soft d f = Ok c ->
  given name gain None c /\ forever c AActive (VBool true) /\ forever c AHard (VBool hard).
Proof. exact (given_custom_constraint name gain mk hard soft d f c). Qed.
Print Assumptions C113_custom_constraint_arguments.

(** The constructors return; a barrier "tip" on the body of the same name, renamed by nothing. *)
Example C113_arguments_case :
  (exists c, new_position_barrier "box" (tscalar 1) "tip" OBody (Some (tscalar 0%R)) None "min" (Some (fun x => 2 * x)%R) 3%R None = Ok c /\
    shows c AName = Ok (VString "box") /\ shows c AObjName = Ok (VString "tip") /\ shows c ALimitType = Ok (VLimit LMin) /\
    shows (uses [Do (OpModel arm2); Do (OpGain (tscalar 5%R)); Look AJax; Do (OpPMin (tscalar 1%R))] c) AObjName = Ok (VString "tip") /\
    shows (uses [Do (OpGain (tscalar 5%R))] c) AGain = Ok (VArray (tscalar 5%R))) /\
  (exists c, new_self_collision "apart" (tscalar 1) None 0%R 2%R [] [] (-1) = Ok c /\ shows c ADMin = Ok (VReal 2%R)) /\
  (exists c, new_model_equality "eq" (tscalar 1) false None = Ok c /\ shows c AHard = Ok (VBool false)).
Proof.
  split; [|split]; eexists; (split; [reflexivity|]); repeat split; vm_compute; reflexivity.
Qed.
