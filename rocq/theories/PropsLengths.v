(** C115: arrays whose length does not fit the model. *)
From Verif Require Import Base Lin Mjx SpecJoint Witness Rot Conf SpecMotion SpecConf SpecLengths LengthFacts LengthThms.
Open Scope R_scope.

(** Which velocities [integrate] accepts, by their number alone. *)
Theorem C115_integrate_accepts m q v dt : wf_joints m -> List.length q = m_nq m ->
  ((exists q', integrate m q v dt = Ok q') <-> forall j, enough_for m (List.length v) j).
Proof. exact (integrate_accepts_iff m q v dt). Qed.
Print Assumptions C115_integrate_accepts.
(** What it accepts gives a configuration of full length. *)
Theorem C115_integrate_length m q v dt : wf_joints m -> List.length q = m_nq m -> (forall j, enough_for m (List.length v) j) ->
  exists q', integrate m q v dt = Ok q' /\ List.length q' = m_nq m.
Proof. exact (integrate_accepts m q v dt). Qed.
Print Assumptions C115_integrate_length.
(** Additional entries are ignored. *)
Theorem C115_extra_entries_ignored m q q2 v v2 dt : wf_joints m -> List.length q = m_nq m -> List.length v = m_nv m ->
  integrate m (q ++ q2) (v ++ v2) dt = integrate m q v dt.
Proof. exact (integrate_prefix m q q2 v v2 dt). Qed.
Print Assumptions C115_extra_entries_ignored.
(** On hinges and slides missing entries repeat the last one. *)
Theorem C115_missing_entries_repeat m q v dt : only_scalar_joints m -> q <> [] -> v <> [] ->
  integrate m q v dt = Ok (map (fun i => entry_or_last q i + dt * entry_or_last v i) (seq 0 (List.length (m_jnt_type m)))).
Proof. exact (integrate_repeats m q v dt). Qed.
Print Assumptions C115_missing_entries_repeat.
(** A ball joint beyond the end of the velocity turns by a third of a full turn. *)
Theorem C115_ball_without_velocity_turns m q v dt q' j : wf_joints m -> List.length q = m_nq m -> joint_type m j JBall ->
  (List.length v <= dof_of m j)%nat -> norm2_at q (qpos_of m j) = 1 -> integrate m q v dt = Ok q' ->
  quat_in q' (qpos_of m j) = q_mul (quat_in q (qpos_of m j)) (mkQ (1 / 2) (1 / 2) (1 / 2) (1 / 2)).
Proof. exact (ball_turns m q v dt q' j). Qed.
Print Assumptions C115_ball_without_velocity_turns.
Example C115_case : wf_joints hbh /\ m_nv hbh = 5%nat /\ List.length [0; 0; 0; 0; 1; 0] = m_nq hbh /\ (forall j, enough_for hbh 1 j) /\
  joint_type hbh 1 JBall /\ dof_of hbh 1 = 1%nat /\ norm2_at [0; 0; 0; 0; 1; 0] (qpos_of hbh 1) = 1 /\
  integrate hbh [0; 0; 0; 0; 1; 0] [1 / 10] (1 / 10) = Ok [1 / 100; - (1 / 2); - (1 / 2); 1 / 2; 1 / 2; 1 / 100].
Proof. exact hbh_case. Qed.
Example C115_arm_case : only_scalar_joints (chain [JHinge; JHinge; JSlide]) /\
  integrate (chain [JHinge; JHinge; JSlide]) [1; 2; 3] [10; 20] 1 = Ok [11; 22; 23].
Proof. exact arm_case. Qed.
Example C115_free_case : enough_for floating 1 0 /\ ~ enough_for floating 2 0 /\ enough_for floating 3 0 /\ ~ enough_for floating 0 0.
Proof. exact free_case. Qed.
