(** C118: Jacobians of points. *)
From Verif Require Import Base Lin LinFacts Mjx Rot SpecConf Conf FrameJac JaxComponents SpecTree SpecShape SpecDeriv SpecPoint.
From Verif Require Import Witness CompThms2 ConfCases DerivThms2 DerivCases SplitCases LogCases PointFacts.
Open Scope R_scope.

(** [geom_point_jacobian] gives one row of six numbers for every degree of freedom: the linear
    velocity of the point and then the angular velocity when this degree of freedom moves at unit
    rate.  Degrees of freedom that do not carry the body have zero rows. *)
Theorem C118_rows m d p b : wf_model m -> wf_data m d -> (b < m_nbody m)%nat -> exists J, geom_point_jacobian m d p (Z.of_nat b) = Ok J /\ is_mat (m_nv m) 6 J /\
  forall k, (k < m_nv m)%nat ->
    (~ in_subtree m (dof_body m k) b -> nth k J [] = vzero 6) /\
    (in_subtree m (dof_body m k) b ->
       let axis := firstn 3 (nth k (d_cdof d) []) in let shift := skipn 3 (nth k (d_cdof d) []) in
       let centre := nth (Z.to_nat (nth b (m_body_rootid m) 0%Z)) (d_subtree_com d) [] in
       nth k J [] = vadd shift (cross3 axis (vsub (v3_list p) centre)) ++ axis).
Proof. exact (fun Hm Hd => point_jacobian_rows m d Hm Hd p b). Qed.
Print Assumptions C118_rows.

(** At the position of an object it is the object's world-aligned Jacobian. *)
Theorem C118_at_objects m d ty i p : wf_model m -> wf_data m d -> (i < count m ty)%nat -> position d ty i = v3_list p ->
  geom_point_jacobian m d p (Z.of_nat (carrier m ty i)) = get_frame_jacobian_world_aligned m d (Z.of_nat i) ty.
Proof. exact (fun Hm Hd => point_at_object m d Hm Hd ty i p). Qed.
Print Assumptions C118_at_objects.

(** Two points of one body: the same angular velocity, and v2 = v1 + omega x (p2 - p1). *)
Theorem C118_rigid_body m d p1 p2 b J1 J2 v : wf_model m -> wf_data m d -> (b < m_nbody m)%nat -> geom_point_jacobian m d p1 (Z.of_nat b) = Ok J1 -> geom_point_jacobian m d p2 (Z.of_nat b) = Ok J2 ->
  angular_velocity J2 v = angular_velocity J1 v /\
  linear_velocity J2 v = vadd (linear_velocity J1 v) (cross3 (angular_velocity J1 v) (vsub (v3_list p2) (v3_list p1))).
Proof. exact (fun Hm Hd => point_rigid m d Hm Hd p1 p2 b J1 J2 v). Qed.
Print Assumptions C118_rigid_body.

(** A point with fixed coordinates [x] in the frame of an object moves with the velocity its
    Jacobian reports, if the object moves as its own Jacobian says. *)
Theorem C118_carried_points m (P : R -> mjdata) ty i x p J0 J v : wf_model m -> wf_data m (P 0) -> (i < count m ty)%nat ->
  get_frame_jacobian_world_aligned m (P 0) (Z.of_nat i) ty = Ok J0 -> moves_with P ty i (linear_velocity J0 v) (angular_velocity J0 v) ->
  carried (P 0) ty i x = v3_list p -> geom_point_jacobian m (P 0) p (Z.of_nat (carrier m ty i)) = Ok J ->
  forall c, (c < 3)%nat -> derivative_at_0 (fun t => nth c (carried (P t) ty i x) 0) (nth c (linear_velocity J v) 0).
Proof. exact (carried_velocity m P ty i x p J0 J v). Qed.
Print Assumptions C118_carried_points.
(** A crank with its tip at (1, 0, 0): a point one further out moves twice as fast. *)
Example C118_case D : let m := chain [JHinge] in let P := data_after (crank D) m [0] [1] in
  wf_model m /\ wf_data m (P 0) /\ (1 < count m OBody)%nat /\ carrier m OBody 1 = 1%nat /\ carried (P 0) OBody 1 [1; 0; 0] = v3_list (mkV 2 0 0) /\
  (exists J0, get_frame_jacobian_world_aligned m (P 0) (Z.of_nat 1) OBody = Ok J0 /\ moves_with P OBody 1 (linear_velocity J0 [1]) (angular_velocity J0 [1])) /\
  exists J, geom_point_jacobian m (P 0) (mkV 2 0 0) (Z.of_nat 1) = Ok J /\ linear_velocity J [1] = [0; 2; 0] /\ angular_velocity J [1] = [0; 0; 1].
Proof.
  cbv zeta. assert (A : data_after (crank D) (chain [JHinge]) [0] [1] 0 = update (crank D) (chain [JHinge]) [0]) by (unfold data_after; now rewrite go).
  split; [apply chain_model|]. split; [rewrite A; now apply crank_wf|]. split; [cbn; lia|]. split; [reflexivity|].
  split; [rewrite A; unfold carried, v3_list; cbn; rewrite cos_0, sin_0; f_equal; [lra|f_equal; [lra|f_equal; lra]]|].
  split; [destruct (crank_axes D) as (J0 & E & El & Ew); exists J0; rewrite A; split; [exact E|]; rewrite El, Ew; apply crank_moves|].
  eexists. split; [rewrite A; reflexivity|]. unfold linear_velocity, angular_velocity. cbn. rewrite ?cos_0, ?sin_0. split; repeat (apply f_equal2; [ring|]); reflexivity.
Qed.

(** A row of the Jacobian of the self-collision barrier, from the point Jacobians of both sides of
    the contact: n . (J2[:, :3] - J1[:, :3]). *)
Theorem C118_self_collision_rows m d dist p n b1 b2 J1 J2 : geom_point_jacobian m d (v3_sub p (v3_scale (dist / 2) n)) b1 = Ok J1 -> geom_point_jacobian m d (v3_add p (v3_scale (dist / 2) n)) b2 = Ok J2 ->
  jac_self_row m d dist p n b1 b2 = Ok (map (fun r => dot (v3_list n) (vsub (firstn 3 (snd r)) (firstn 3 (fst r)))) (combine J1 J2)).
Proof. exact (self_row_points m d dist p n b1 b2 J1 J2). Qed.
Print Assumptions C118_self_collision_rows.
