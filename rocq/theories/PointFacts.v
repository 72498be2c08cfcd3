(** The Jacobian of a point (geom_point_jacobian). *)
From Verif Require Import Base Lin LinFacts Mjx Rot Conf FrameJac JaxComponents SpecTree SpecShape SpecConf SpecDeriv SpecPoint MotionFacts MotionFacts2 QPFacts ConfFacts3 TreeFacts FrameFacts.
Open Scope R_scope.

Section Point.
Context (m : mjmodel) (d : mjdata) (Hm : wf_model m) (Hd : wf_data m d).
Lemma point_world p b : (b < m_nbody m)%nat ->
  exists cd mk c, mapM cdof_of (d_cdof d) = Ok cd /\ List.length cd = m_nv m /\
  dof_mask m (Z.of_nat b) = Ok mk /\ List.length mk = m_nv m /\
  (forall k, (k < m_nv m)%nat -> (nth k mk false = true <-> in_subtree m (dof_body m k) b)) /\
  nth (Z.to_nat (nth b (m_body_rootid m) 0%Z)) (d_subtree_com d) [] = v3_list c /\
  geom_point_jacobian m d p (Z.of_nat b) = Ok (map (fun k => v3_list (lin_part cd mk (v3_sub p c) k) ++ v3_list (ang_part cd mk k)) (seq 0 (m_nv m))).
Proof.
  intros Hb. pose proof Hm as (_ & wft & wfd & _).
  destruct (dof_mask_spec m wft b wfd Hb) as (mk & Emk & Lmk & Smk). destruct (offset_spec m d Hm Hd p b Hb) as (c & Ec & Pc).
  destruct (cdof_spec m d Hd) as (cd & Ecd & Lcd & _). exists cd, mk, c. repeat (split; [assumption|]).
  unfold geom_point_jacobian, point_rows. rewrite Emk. cbn [bind]. rewrite Ec. cbn [bind]. rewrite Ecd. cbn [bind].
  rewrite Lcd, Lmk, Nat.eqb_refl. cbn [negb bind]. f_equal.
  rewrite map_map. apply (nth_ext _ _ (v3_list v3_zero ++ v3_list v3_zero) (v3_list v3_zero ++ v3_list v3_zero)); [rewrite !map_length, combine_length, seq_length; lia|].
  intros k Hk. rewrite map_length, combine_length in Hk.
  rewrite (map_combine_nth _ cd mk (v3_zero, v3_zero) false) by lia.
  set (F := fun k0 => v3_list (lin_part cd mk (v3_sub p c) k0) ++ v3_list (ang_part cd mk k0)).
  rewrite (nth_indep (map F _) _ (F 0%nat)) by (rewrite map_length, seq_length; lia). rewrite map_nth, seq_nth by lia. unfold F, lin_part, ang_part. cbn [Nat.add].
  destruct (nth k cd (v3_zero, v3_zero)) as [a l]. reflexivity.
Qed.
Lemma point_jacobian_rows p b : (b < m_nbody m)%nat -> exists J, geom_point_jacobian m d p (Z.of_nat b) = Ok J /\ is_mat (m_nv m) 6 J /\
  forall k, (k < m_nv m)%nat ->
    (~ in_subtree m (dof_body m k) b -> nth k J [] = vzero 6) /\
    (in_subtree m (dof_body m k) b ->
       let axis := firstn 3 (nth k (d_cdof d) []) in let shift := skipn 3 (nth k (d_cdof d) []) in
       let centre := nth (Z.to_nat (nth b (m_body_rootid m) 0%Z)) (d_subtree_com d) [] in
       nth k J [] = vadd shift (cross3 axis (vsub (v3_list p) centre)) ++ axis).
Proof.
  intros Hb. destruct (point_world p b Hb) as (cd & mk & c & Ecd & Lcd & _ & _ & Smk & Pc & W). eexists. split; [exact W|].
  split. { split; [now rewrite map_length, seq_length|]. apply Forall_forall. intros x Hx. apply in_map_iff in Hx. destruct Hx as (k & <- & _). reflexivity. }
  intros k Hk. set (F := fun k => v3_list (lin_part cd mk (v3_sub p c) k) ++ v3_list (ang_part cd mk k)).
  rewrite (nth_indep _ [] (F 0%nat)) by (now rewrite map_length, seq_length). rewrite map_nth, seq_nth by exact Hk. cbn [Nat.add]. unfold F, lin_part, ang_part.
  split.
  - intros N. assert (E : nth k mk false = false) by (destruct (nth k mk false) eqn:E; [elim N; now apply Smk|reflexivity]). rewrite E. reflexivity.
  - intros Y. apply (Smk k Hk) in Y. rewrite Y. cbn [gate]. destruct (cdof_spec m d Hd) as (cd' & Ecd' & _ & S). rewrite Ecd in Ecd'. injection Ecd' as <-. rewrite (S k Hk).
    cbv zeta. rewrite Pc. destruct (nth k cd (v3_zero, v3_zero)) as [[a1 a2 a3] [l1 l2 l3]], p, c. reflexivity.
Qed.
Lemma point_at_object ty i p : (i < count m ty)%nat -> position d ty i = v3_list p ->
  geom_point_jacobian m d p (Z.of_nat (carrier m ty i)) = get_frame_jacobian_world_aligned m d (Z.of_nat i) ty.
Proof.
  intros Hi Hp. destruct (object_body_spec m Hm ty i Hi) as (Eb & Hb). destruct (object_pos_spec m d Hd ty i Hi) as (p' & Ep & Pp).
  assert (p' = p) as -> by (rewrite Hp in Pp; destruct p, p'; unfold v3_list in Pp; cbn in Pp; now injection Pp as -> -> ->).
  unfold geom_point_jacobian, get_frame_jacobian_world_aligned. rewrite Eb. cbn [bind]. rewrite Ep. reflexivity.
Qed.
Lemma point_rigid p1 p2 b J1 J2 v : (b < m_nbody m)%nat -> geom_point_jacobian m d p1 (Z.of_nat b) = Ok J1 -> geom_point_jacobian m d p2 (Z.of_nat b) = Ok J2 ->
  angular_velocity J2 v = angular_velocity J1 v /\
  linear_velocity J2 v = vadd (linear_velocity J1 v) (cross3 (angular_velocity J1 v) (vsub (v3_list p2) (v3_list p1))).
Proof.
  intros Hb E1 E2. destruct (point_world p1 b Hb) as (cd & mk & c & Ecd & _ & Emk & _ & _ & C1 & W1). destruct (point_world p2 b Hb) as (cd' & mk' & c' & Ecd' & _ & Emk' & _ & _ & C2 & W2).
  rewrite Ecd in Ecd'. injection Ecd' as <-. rewrite Emk' in Emk. injection Emk as <-. rewrite C2 in C1.
  assert (c' = c) as -> by (destruct c, c'; unfold v3_list in C1; cbn in C1; now injection C1 as -> -> ->).
  rewrite E1 in W1. apply Ok_inj in W1. rewrite E2 in W2. apply Ok_inj in W2. rewrite W1, W2.
  destruct (column_lin (lin_part cd mk' (v3_sub p1 c)) (ang_part cd mk') (seq 0 (m_nv m)) v) as [-> ->].
  destruct (column_lin (lin_part cd mk' (v3_sub p2 c)) (ang_part cd mk') (seq 0 (m_nv m)) v) as [-> ->]. split; [reflexivity|].
  assert (L : forall off1 off2 k, lin_part cd mk' off2 k = v3_add (lin_part cd mk' off1 k) (cross (ang_part cd mk' k) (v3_sub off2 off1))).
  { intros o1 o2 k. unfold lin_part, ang_part. destruct (nth k mk' false); cbn [gate]; destruct (nth k cd (v3_zero, v3_zero)) as [[a1 a2 a3] [l1 l2 l3]], o1, o2; unfold v3_add, cross, v3_sub, v3_zero; cbn; f_equal; ring. }
  unfold cross3, vsub, vadd, vmap2, v3_list. cbn [map combine fst snd nth]. f_equal; [|f_equal; [|f_equal]].
  - rewrite (dot_lin4 (fun k => vx (lin_part cd mk' (v3_sub p1 c) k)) (fun k => vy (ang_part cd mk' k)) (fun k => vz (ang_part cd mk' k)) _ (vz p2 - vz p1) (vy p2 - vy p1)); [ring|].
    intros k _. rewrite (L (v3_sub p1 c) (v3_sub p2 c)). destruct p1, p2, c. unfold v3_add, cross, v3_sub. cbn. ring.
  - rewrite (dot_lin4 (fun k => vy (lin_part cd mk' (v3_sub p1 c) k)) (fun k => vz (ang_part cd mk' k)) (fun k => vx (ang_part cd mk' k)) _ (vx p2 - vx p1) (vz p2 - vz p1)); [ring|].
    intros k _. rewrite (L (v3_sub p1 c) (v3_sub p2 c)). destruct p1, p2, c. unfold v3_add, cross, v3_sub. cbn. ring.
  - rewrite (dot_lin4 (fun k => vz (lin_part cd mk' (v3_sub p1 c) k)) (fun k => vx (ang_part cd mk' k)) (fun k => vy (ang_part cd mk' k)) _ (vy p2 - vy p1) (vx p2 - vx p1)); [ring|].
    intros k _. rewrite (L (v3_sub p1 c) (v3_sub p2 c)). destruct p1, p2, c. unfold v3_add, cross, v3_sub. cbn. ring.
Qed.
End Point.

(** The point [x] of an object moves with the velocity its Jacobian reports. *)
Lemma carried_velocity m (P : R -> mjdata) ty i x p J0 J v : wf_model m -> wf_data m (P 0) -> (i < count m ty)%nat ->
  get_frame_jacobian_world_aligned m (P 0) (Z.of_nat i) ty = Ok J0 -> moves_with P ty i (linear_velocity J0 v) (angular_velocity J0 v) ->
  carried (P 0) ty i x = v3_list p -> geom_point_jacobian m (P 0) p (Z.of_nat (carrier m ty i)) = Ok J ->
  forall c, (c < 3)%nat -> derivative_at_0 (fun t => nth c (carried (P t) ty i x) 0) (nth c (linear_velocity J v) 0).
Proof.
  intros Hm Hd Hi E0 [M1 M2] Hp EJ c Hc. destruct (object_pos_spec m (P 0) Hd ty i Hi) as (p0 & _ & Pp). destruct (object_body_spec m Hm ty i Hi) as (_ & Hb).
  rewrite <- (point_at_object m (P 0) Hm Hd ty i p0 Hi Pp) in E0. destruct (point_rigid m (P 0) Hm Hd p0 p (carrier m ty i) J0 J v Hb E0 EJ) as [_ R].
  set (l := linear_velocity J0 v) in *. set (w := angular_velocity J0 v) in *. set (O := orientation (P 0) ty i) in *.
  assert (D : forall r, (r < 3)%nat -> derivative_at_0 (fun t => nth r (carried (P t) ty i x) 0) (nth r l 0 + (nth r (cross3 w (col3 O 0)) 0 * nth 0 x 0 + nth r (cross3 w (col3 O 1)) 0 * nth 1 x 0 + nth r (cross3 w (col3 O 2)) 0 * nth 2 x 0))).
  { intros r Hr. unfold derivative_at_0 in *. pose proof (M1 r Hr) as A. pose proof (M2 r 0%nat Hr ltac:(lia)) as B0. pose proof (M2 r 1%nat Hr ltac:(lia)) as B1. pose proof (M2 r 2%nat Hr ltac:(lia)) as B2. rewrite Nat.add_0_r in B0.
    assert (S : forall f e y, derivable_pt_lim f 0 e -> derivable_pt_lim (fun t => f t * y) 0 (e * y)).
    { intros f e y F. replace (e * y) with (e * y + f 0 * 0) by ring. apply (derivable_pt_lim_mult f (fun _ => y)); [exact F|apply derivable_pt_lim_const]. }
    assert (G : forall t, nth r (carried (P t) ty i x) 0 = nth r (position (P t) ty i) 0 + (nth (3 * r) (orientation (P t) ty i) 0 * nth 0 x 0 + nth (3 * r + 1) (orientation (P t) ty i) 0 * nth 1 x 0 + nth (3 * r + 2) (orientation (P t) ty i) 0 * nth 2 x 0)) by (intros t; destruct r as [|[|[|r]]]; [reflexivity|reflexivity|reflexivity|lia]).
    intros eps He. assert (T : derivable_pt_lim (fun t => nth r (position (P t) ty i) 0 + (nth (3 * r) (orientation (P t) ty i) 0 * nth 0 x 0 + nth (3 * r + 1) (orientation (P t) ty i) 0 * nth 1 x 0 + nth (3 * r + 2) (orientation (P t) ty i) 0 * nth 2 x 0)) 0 (nth r l 0 + (nth r (cross3 w (col3 O 0)) 0 * nth 0 x 0 + nth r (cross3 w (col3 O 1)) 0 * nth 1 x 0 + nth r (cross3 w (col3 O 2)) 0 * nth 2 x 0))).
    { apply (derivable_pt_lim_plus (fun t => nth r (position (P t) ty i) 0)); [exact A|].
      apply (derivable_pt_lim_plus (fun t => nth (3 * r) (orientation (P t) ty i) 0 * nth 0 x 0 + nth (3 * r + 1) (orientation (P t) ty i) 0 * nth 1 x 0) (fun t => nth (3 * r + 2) (orientation (P t) ty i) 0 * nth 2 x 0)); [|apply S, B2].
      apply (derivable_pt_lim_plus (fun t => nth (3 * r) (orientation (P t) ty i) 0 * nth 0 x 0) (fun t => nth (3 * r + 1) (orientation (P t) ty i) 0 * nth 1 x 0)); apply S; assumption. }
    destruct (T eps He) as (dl & K). exists dl. intros h H1 H2. rewrite !G. now apply K. }
  specialize (D c Hc). replace (nth c (linear_velocity J v) 0) with (nth c l 0 + (nth c (cross3 w (col3 O 0)) 0 * nth 0 x 0 + nth c (cross3 w (col3 O 1)) 0 * nth 1 x 0 + nth c (cross3 w (col3 O 2)) 0 * nth 2 x 0)); [exact D|].
  rewrite R. unfold carried in Hp. rewrite Pp in Hp. fold O in Hp. rewrite <- Hp.
  assert (Ll : exists a b e, l = [a; b; e]) by (unfold l, linear_velocity; cbn; eauto). destruct Ll as (a & b & e & ->). clearbody w O. destruct p0 as [x0 y0 z0]. unfold vadd, vsub, vmap2, v3_list, cross3, col3.
  destruct c as [|[|[|c]]]; [| | |lia]; cbn; ring.
Qed.

(** _self_collision_barrier.py:106-109: n @ (J2[:, :3] - J1[:, :3]).T *)
Lemma self_row_points m d dist p n b1 b2 J1 J2 : geom_point_jacobian m d (v3_sub p (v3_scale (dist / 2) n)) b1 = Ok J1 -> geom_point_jacobian m d (v3_add p (v3_scale (dist / 2) n)) b2 = Ok J2 ->
  jac_self_row m d dist p n b1 b2 = Ok (map (fun r => dot (v3_list n) (vsub (firstn 3 (snd r)) (firstn 3 (fst r)))) (combine J1 J2)).
Proof.
  unfold geom_point_jacobian, jac_self_row. destruct (point_rows m d (v3_sub p (v3_scale (dist / 2) n)) b1) as [r1|]; [|discriminate]. destruct (point_rows m d (v3_add p (v3_scale (dist / 2) n)) b2) as [r2|]; [|discriminate].
  cbn [bind]. intros E1 E2. injection E1 as <-. injection E2 as <-. f_equal. revert r2. induction r1 as [|[[a b c] u] r1 IH]; intros [|[[a' b' c'] u'] r2]; try reflexivity. cbn [map combine fst snd]. f_equal; [|apply IH].
  unfold v3_dot, v3_sub, v3_list, dot, vsub, vmul, vmap2. cbn. ring.
Qed.
