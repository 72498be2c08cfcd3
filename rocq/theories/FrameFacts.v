(** Proofs about object Jacobians. *)
From Verif Require Import Base Lin LinFacts Mjx Rot Conf FrameJac JaxComponents SpecTree SpecShape MotionFacts MotionFacts2 QPFacts ConfFacts3 TreeFacts.
Open Scope R_scope.

Lemma Ok_inj {A} (a b : A) : Ok a = Ok b -> a = b. Proof. now injection 1. Qed.
Lemma jx_idx_Z {A} (l : list A) i d : in_range (List.length l) i -> jx_idx l i = Ok (nth (Z.to_nat i) l d).
Proof. intros H. unfold in_range in H. replace i with (Z.of_nat (Z.to_nat i)) at 1 by lia. apply jx_idx_in. lia. Qed.
Lemma np_idx_Z {A} (l : list A) i d : in_range (List.length l) i -> np_idx l i = Ok (nth (Z.to_nat i) l d).
Proof.
  intros H. unfold in_range in H. unfold np_idx. destruct (Z.ltb_spec i 0); [lia|]. destruct (Z.leb_spec (Z.of_nat (List.length l)) i); [lia|].
  destruct (Z.ltb_spec i 0); [lia|]. cbn [orb]. rewrite (nth_error_nth' l d) by lia. reflexivity.
Qed.
Lemma mapM_total {A B} (f : A -> res B) l : (forall x, In x l -> exists y, f x = Ok y) -> exists ys, mapM f l = Ok ys.
Proof.
  induction l as [|x l IH]; intros H; [now exists []|]. destruct (H x (or_introl eq_refl)) as (y & Hy). destruct IH as (ys & Hys); [intros; apply H; now right|].
  exists (y :: ys). cbn. now rewrite Hy; cbn; rewrite Hys.
Qed.
Lemma mapM_length {A B} (f : A -> res B) l ys : mapM f l = Ok ys -> List.length ys = List.length l.
Proof. rewrite mapM_ok. intros H. induction H; cbn; congruence. Qed.
Lemma mapM_nth {A B} (f : A -> res B) l ys a b k : mapM f l = Ok ys -> (k < List.length l)%nat -> f (nth k l a) = Ok (nth k ys b).
Proof.
  rewrite mapM_ok. intros H. revert k. induction H as [|x y l ys Hx _ IH]; intros [|k] Hk; cbn in *; try lia; [exact Hx|apply IH; lia].
Qed.

Section Mask.
Context (m : mjmodel) (Hw : wf_tree m).
Lemma Zsum_indicator (b : nat) ds : NoDup ds -> msum Z.add 0%Z (fun i => if Nat.eqb i b then 1%Z else 0%Z) ds = if existsb (Nat.eqb b) ds then 1%Z else 0%Z.
Proof.
  induction 1 as [|i ds Hn _ IH]; [reflexivity|]. unfold msum in *. cbn [fold_right existsb]. rewrite IH. rewrite (Nat.eqb_sym b i).
  destruct (Nat.eqb_spec i b) as [->|N]; cbn [orb]; [|destruct (existsb _ ds); reflexivity].
  destruct (existsb (Nat.eqb b) ds) eqn:E; [|reflexivity]. apply existsb_exists in E. destruct E as (j & Hj & E). apply Nat.eqb_eq in E. subst. contradiction.
Qed.
Lemma body_mask_spec b c : (b < m_nbody m)%nat -> (c < m_nbody m)%nat ->
  ((0 <? nth c (body_mask m (Z.of_nat b)) 0)%Z = true <-> in_subtree m c b).
Proof.
  intros Hb Hc. unfold body_mask. set (xs := map _ _). assert (Lx : List.length xs = m_nbody m) by (unfold xs; now rewrite map_length, seq_length).
  destruct (tree_sum m Hw Z.add 0%Z Z.add_comm Z.add_assoc Z.add_0_l xs 0%Z Lx) as [_ S].
  destruct (subtree_list_exists m c Hw) as (ds & Hds). rewrite (S c ds Hc Hds).
  rewrite (msum_ext _ _ _ (fun i => if Nat.eqb i b then 1%Z else 0%Z)).
  - rewrite Zsum_indicator by apply Hds. destruct Hds as [_ Hin]. destruct (existsb (Nat.eqb b) ds) eqn:E.
    + apply existsb_exists in E. destruct E as (j & Hj & E). apply Nat.eqb_eq in E. subst. split; [intros _; now apply Hin|reflexivity].
    + split; [discriminate|]. intros H. assert (X : existsb (Nat.eqb b) ds = true); [|congruence]. apply existsb_exists. exists b. split; [now apply Hin|apply Nat.eqb_refl].
  - intros i Hi. assert (Hi' : (i < m_nbody m)%nat) by (now apply Hds). unfold xs.
    set (F := fun b0 => if (Z.of_nat b0 =? Z.of_nat b)%Z then 1%Z else 0%Z). rewrite (nth_indep _ 0%Z (F 0%nat)) by (now rewrite map_length, seq_length).
    rewrite map_nth, seq_nth by exact Hi'. unfold F. cbn [Nat.add]. destruct (Nat.eqb_spec i b); destruct (Z.eqb_spec (Z.of_nat i) (Z.of_nat b)); try reflexivity; lia.
Qed.
Lemma body_mask_length b : List.length (body_mask m b) = m_nbody m.
Proof.
  unfold body_mask. set (xs := map _ _). assert (Lx : List.length xs = m_nbody m) by (unfold xs; now rewrite map_length, seq_length).
  apply (tree_sum m Hw Z.add 0%Z Z.add_comm Z.add_assoc Z.add_0_l xs 0%Z Lx).
Qed.
Lemma dof_mask_spec b : wf_dofs m -> (b < m_nbody m)%nat ->
  exists mk, dof_mask m (Z.of_nat b) = Ok mk /\ List.length mk = m_nv m /\
  forall k, (k < m_nv m)%nat -> (nth k mk false = true <-> in_subtree m (dof_body m k) b).
Proof.
  intros (Ld & Fd) Hb. unfold dof_mask. destruct (mapM_total (jx_idx (body_mask m (Z.of_nat b))) (m_dof_bodyid m)) as (l & Hl).
  { intros x Hx. rewrite Forall_forall in Fd. eexists. apply (jx_idx_Z _ _ 0%Z). rewrite body_mask_length. now apply Fd. }
  unfold jx_gather. rewrite Hl. cbn [bind]. eexists. split; [reflexivity|]. pose proof (mapM_length _ _ _ Hl) as Ll. split; [rewrite map_length; congruence|].
  intros k Hk. set (G := fun x => (0 <? x)%Z). rewrite (nth_indep _ false (G 0%Z)) by (rewrite map_length; congruence). rewrite map_nth. unfold G.
  pose proof (mapM_nth _ _ _ 0%Z 0%Z k Hl ltac:(lia)) as E. set (c := nth k (m_dof_bodyid m) 0%Z) in *.
  assert (Rc : in_range (m_nbody m) c) by (rewrite Forall_forall in Fd; apply Fd, nth_In; lia).
  rewrite (jx_idx_Z _ _ 0%Z) in E by (rewrite body_mask_length; exact Rc). injection E as <-. unfold dof_body. fold c. unfold in_range in Rc.
  apply body_mask_spec; [exact Hb|lia].
Qed.
End Mask.

(** Rows of three or six numbers. *)
Lemma len3 (l : list R) : List.length l = 3%nat -> exists v, v3_of l = Ok v /\ l = v3_list v.
Proof. destruct l as [|x [|y [|z [|? ?]]]]; try discriminate. intros _. exists (mkV x y z). split; reflexivity. Qed.
Lemma len9 (l : list R) : List.length l = 9%nat -> exists M, m3_of l = Ok M /\ l = m3_list M.
Proof. destruct l as [|a [|b [|c [|d [|e [|f [|g [|h [|i [|? ?]]]]]]]]]]; try discriminate. intros _. exists (mkM3 a b c d e f g h i). split; reflexivity. Qed.
Lemma len6 (l : list R) : List.length l = 6%nat -> exists a b, cdof_of l = Ok (a, b) /\ l = v3_list a ++ v3_list b.
Proof. destruct l as [|x [|y [|z [|x' [|y' [|z' [|? ?]]]]]]]; try discriminate. intros _. exists (mkV x y z), (mkV x' y' z'). split; reflexivity. Qed.
Lemma mat_in {r c} (M : mat) i : is_mat r c M -> (i < r)%nat -> List.length (nth i M []) = c.
Proof. apply mat_row. Qed.

Section Frame.
Context (m : mjmodel) (d : mjdata) (Hm : wf_model m) (Hd : wf_data m d).
Lemma wft : wf_tree m. Proof. apply Hm. Qed.
Lemma wfd : wf_dofs m. Proof. apply Hm. Qed.
Lemma object_body_spec ty i : (i < count m ty)%nat ->
  object_body m (Z.of_nat i) ty = Ok (Z.of_nat (carrier m ty i)) /\ (carrier m ty i < m_nbody m)%nat.
Proof.
  intros Hi. destruct Hm as (_ & _ & _ & _ & _ & Hg & Hs & _).
  destruct ty; cbn [object_body carrier count] in *.
  - auto.
  - rewrite (np_idx_Z _ _ 0%Z) by (unfold in_range; lia). rewrite Nat2Z.id. rewrite Forall_forall in Hg. assert (G : in_range (m_nbody m) (nth i (m_geom_bodyid m) 0%Z)) by (apply Hg, nth_In; exact Hi).
    unfold in_range in G. rewrite Z2Nat.id by lia. split; [reflexivity|lia].
  - rewrite (np_idx_Z _ _ 0%Z) by (unfold in_range; lia). rewrite Nat2Z.id. rewrite Forall_forall in Hs. assert (G : in_range (m_nbody m) (nth i (m_site_bodyid m) 0%Z)) by (apply Hs, nth_In; exact Hi).
    unfold in_range in G. rewrite Z2Nat.id by lia. split; [reflexivity|lia].
  - auto.
Qed.
Lemma object_pos_spec ty i : (i < count m ty)%nat -> exists p, object_pos d (Z.of_nat i) ty = Ok p /\ position d ty i = v3_list p.
Proof.
  intros Hi. destruct Hd as (_ & X & _ & _ & _ & G & _ & S & _).
  assert (K : forall (M : mat) r, is_mat r 3 M -> (i < r)%nat -> exists p, (do l <- jx_idx M (Z.of_nat i); v3_of l) = Ok p /\ nth i M [] = v3_list p).
  { intros M r HM Hr. pose proof HM as [LM _]. rewrite (jx_idx_Z _ _ []) by (unfold in_range; lia). cbn [bind]. rewrite Nat2Z.id. apply len3. now apply (mat_in (r := r)). }
  destruct ty; cbn [object_pos position count] in *; eapply K; eassumption.
Qed.
Lemma object_mat_spec ty i : (i < count m ty)%nat -> exists M, object_mat d (Z.of_nat i) ty = Ok M /\ orientation d ty i = m3_list M.
Proof.
  intros Hi. destruct Hd as (_ & _ & X & _ & _ & _ & G & _ & S & _).
  assert (K : forall (M : mat) r, is_mat r 9 M -> (i < r)%nat -> exists p, (do l <- jx_idx M (Z.of_nat i); m3_of l) = Ok p /\ nth i M [] = m3_list p).
  { intros M r HM Hr. pose proof HM as [LM _]. rewrite (jx_idx_Z _ _ []) by (unfold in_range; lia). cbn [bind]. rewrite Nat2Z.id. apply len9. now apply (mat_in (r := r)). }
  destruct ty; cbn [object_mat orientation count] in *; eapply K; eassumption.
Qed.
(** Centre the cdof rows of a body refer to. *)
Lemma offset_spec p b : (b < m_nbody m)%nat -> exists c, offset_of m d p (Z.of_nat b) = Ok (v3_sub p c) /\
  nth (Z.to_nat (nth b (m_body_rootid m) 0%Z)) (d_subtree_com d) [] = v3_list c.
Proof.
  intros Hb. destruct Hm as (_ & _ & _ & Lr & Fr & _). destruct Hd as (_ & _ & _ & _ & _ & _ & _ & _ & _ & Sc & _). unfold offset_of.
  rewrite (jx_idx_Z _ _ 0%Z) by (unfold in_range; lia). cbn [bind]. rewrite Nat2Z.id. set (r := nth b (m_body_rootid m) 0%Z).
  assert (Rr : in_range (m_nbody m) r) by (rewrite Forall_forall in Fr; apply Fr, nth_In; lia). pose proof Sc as [Ls _].
  rewrite (jx_idx_Z _ _ []) by (rewrite Ls; exact Rr). cbn [bind]. destruct (len3 (nth (Z.to_nat r) (d_subtree_com d) [])) as (c & Hc & E).
  { apply (mat_in (r := m_nbody m)); [exact Sc|unfold in_range in Rr; lia]. }
  rewrite Hc. cbn [bind]. exists c. auto.
Qed.
Lemma cdof_spec : exists cd, mapM cdof_of (d_cdof d) = Ok cd /\ List.length cd = m_nv m /\ forall k, (k < m_nv m)%nat -> nth k (d_cdof d) [] = v3_list (fst (nth k cd (v3_zero, v3_zero))) ++ v3_list (snd (nth k cd (v3_zero, v3_zero))).
Proof.
  destruct Hd as (_ & _ & _ & _ & _ & _ & _ & _ & _ & _ & C & _). destruct (mapM_total cdof_of (d_cdof d)) as (cd & Hcd).
  { intros x Hx. destruct C as [_ F]. rewrite Forall_forall in F. destruct (len6 x (F x Hx)) as (a & b & E & _). eauto. }
  exists cd. split; [exact Hcd|]. pose proof (mapM_length _ _ _ Hcd) as L. pose proof C as [LC _]. split; [congruence|]. intros k Hk.
  pose proof (mapM_nth _ _ _ [] (v3_zero, v3_zero) k Hcd ltac:(lia)) as E. destruct (len6 (nth k (d_cdof d) []) (mat_in _ _ C Hk)) as (a & b & E' & ->).
  rewrite E' in E. injection E as <-. reflexivity.
Qed.

Definition lin_part (cd : list (v3 * v3)) (mk : list bool) (off : v3) (k : nat) : v3 :=
  gate (nth k mk false) (v3_add (snd (nth k cd (v3_zero, v3_zero))) (cross (fst (nth k cd (v3_zero, v3_zero))) off)).
Definition ang_part (cd : list (v3 * v3)) (mk : list bool) (k : nat) : v3 := gate (nth k mk false) (fst (nth k cd (v3_zero, v3_zero))).

Lemma map_combine_nth {A B C} (f : A * B -> C) (l : list A) (l' : list B) a b c k : List.length l = List.length l' -> (k < List.length l)%nat ->
  nth k (map f (combine l l')) c = f (nth k l a, nth k l' b).
Proof.
  intros L H. rewrite (nth_indep _ c (f (a, b))) by (rewrite map_length, combine_length; lia). rewrite map_nth. now rewrite combine_nth_def.
Qed.

(** Everything a world-aligned Jacobian call computes. *)
Lemma world_jacobian ty i : (i < count m ty)%nat ->
  exists cd mk p c, mapM cdof_of (d_cdof d) = Ok cd /\ List.length cd = m_nv m /\
  dof_mask m (Z.of_nat (carrier m ty i)) = Ok mk /\ List.length mk = m_nv m /\
  (forall k, (k < m_nv m)%nat -> (nth k mk false = true <-> in_subtree m (dof_body m k) (carrier m ty i))) /\
  position d ty i = v3_list p /\ nth (Z.to_nat (nth (carrier m ty i) (m_body_rootid m) 0%Z)) (d_subtree_com d) [] = v3_list c /\
  get_frame_jacobian_world_aligned m d (Z.of_nat i) ty =
    Ok (map (fun k => v3_list (lin_part cd mk (v3_sub p c) k) ++ v3_list (ang_part cd mk k)) (seq 0 (m_nv m))).
Proof.
  intros Hi. destruct (object_body_spec ty i Hi) as (Eb & Hb). destruct (object_pos_spec ty i Hi) as (p & Ep & Pp).
  destruct (dof_mask_spec m wft (carrier m ty i) wfd Hb) as (mk & Emk & Lmk & Smk). destruct (offset_spec p (carrier m ty i) Hb) as (c & Ec & Pc).
  destruct cdof_spec as (cd & Ecd & Lcd & _). exists cd, mk, p, c. repeat (split; [assumption|]).
  unfold get_frame_jacobian_world_aligned. rewrite Eb. cbn [bind]. rewrite Ep. cbn [bind]. unfold point_rows. rewrite Emk. cbn [bind]. rewrite Ec. cbn [bind]. rewrite Ecd. cbn [bind].
  rewrite Lcd, Lmk, Nat.eqb_refl. cbn [negb bind]. f_equal.
  rewrite map_map. apply (nth_ext _ _ (v3_list v3_zero ++ v3_list v3_zero) (v3_list v3_zero ++ v3_list v3_zero)); [rewrite !map_length, combine_length, seq_length; lia|].
  intros k Hk. rewrite map_length, combine_length in Hk.
  rewrite (map_combine_nth _ cd mk (v3_zero, v3_zero) false) by lia.
  set (F := fun k0 => v3_list (lin_part cd mk (v3_sub p c) k0) ++ v3_list (ang_part cd mk k0)).
  rewrite (nth_indep (map F _) _ (F 0%nat)) by (rewrite map_length, seq_length; lia). rewrite map_nth, seq_nth by lia. unfold F, lin_part, ang_part. cbn [Nat.add].
  destruct (nth k cd (v3_zero, v3_zero)) as [a l]. reflexivity.
Qed.
Lemma m3_app_gate M b v : gate b (m3_app M v) = m3_app M (gate b v).
Proof. destruct b; [reflexivity|]. unfold gate, m3_app, v3_zero. cbn. f_equal; ring. Qed.
Lemma local_jacobian ty i J : (i < count m ty)%nat -> get_frame_jacobian_world_aligned m d (Z.of_nat i) ty = Ok J ->
  exists J', get_frame_jacobian_local m d (Z.of_nat i) ty = Ok J' /\
  J' = map (fun row => rotate_back (orientation d ty i) (firstn 3 row) ++ rotate_back (orientation d ty i) (skipn 3 row)) J.
Proof.
  intros Hi HJ. destruct (object_body_spec ty i Hi) as (Eb & Hb). destruct (object_pos_spec ty i Hi) as (p & Ep & Pp).
  destruct (object_mat_spec ty i Hi) as (M & EM & PM).
  destruct (dof_mask_spec m wft (carrier m ty i) wfd Hb) as (mk & Emk & Lmk & Smk). destruct (offset_spec p (carrier m ty i) Hb) as (c & Ec & Pc).
  destruct cdof_spec as (cd & Ecd & Lcd & _).
  unfold get_frame_jacobian_world_aligned in HJ. rewrite Eb in HJ. cbn [bind] in HJ. rewrite Ep in HJ. cbn [bind] in HJ. unfold point_rows in HJ. rewrite Emk in HJ. cbn [bind] in HJ. rewrite Ec in HJ. cbn [bind] in HJ. rewrite Ecd in HJ. cbn [bind] in HJ.
  rewrite Lcd, Lmk, Nat.eqb_refl in HJ. cbn [negb bind] in HJ. injection HJ as <-.
  unfold get_frame_jacobian_local. rewrite Eb. cbn [bind]. rewrite Ep. cbn [bind]. rewrite EM. cbn [bind]. rewrite Emk. cbn [bind]. rewrite Ec. cbn [bind]. rewrite Ecd. cbn [bind].
  cbv zeta. rewrite Lcd, Lmk, Nat.eqb_refl. cbn [negb]. eexists. split; [reflexivity|]. rewrite !map_map. apply map_ext. intros ((a & l) & b).
  rewrite !m3_app_gate. rewrite PM. cbn [fst snd]. generalize (gate b (v3_add l (cross a (v3_sub p c)))) (gate b a). intros [x y z] [x' y' z']. destruct M. reflexivity.
Qed.

(** Weighted sums of the rows. *)
Lemma column_lin (F G : nat -> v3) ks v :
  linear_velocity (map (fun k => v3_list (F k) ++ v3_list (G k)) ks) v = [dot (map (fun k => vx (F k)) ks) v; dot (map (fun k => vy (F k)) ks) v; dot (map (fun k => vz (F k)) ks) v] /\
  angular_velocity (map (fun k => v3_list (F k) ++ v3_list (G k)) ks) v = [dot (map (fun k => vx (G k)) ks) v; dot (map (fun k => vy (G k)) ks) v; dot (map (fun k => vz (G k)) ks) v].
Proof. unfold linear_velocity, angular_velocity. cbn [map]. rewrite !map_map. split; reflexivity. Qed.
Lemma dot_lin4 (f g h u : nat -> R) (a b : R) ks : forall v, (forall k, In k ks -> u k = f k + (a * g k - b * h k)) ->
  dot (map u ks) v = dot (map f ks) v + (a * dot (map g ks) v - b * dot (map h ks) v).
Proof.
  induction ks as [|k ks IH]; intros [|x v] H; cbn [map]; rewrite ?dot_nil_l, ?dot_nil_r; try ring. rewrite !dot_cons. rewrite IH by (intros; apply H; now right). rewrite H by now left. ring.
Qed.
Lemma rigid_velocity ty1 i1 ty2 i2 J1 J2 v : (i1 < count m ty1)%nat -> (i2 < count m ty2)%nat -> carrier m ty1 i1 = carrier m ty2 i2 ->
  get_frame_jacobian_world_aligned m d (Z.of_nat i1) ty1 = Ok J1 -> get_frame_jacobian_world_aligned m d (Z.of_nat i2) ty2 = Ok J2 ->
  angular_velocity J2 v = angular_velocity J1 v /\
  linear_velocity J2 v = vadd (linear_velocity J1 v) (cross3 (angular_velocity J1 v) (vsub (position d ty2 i2) (position d ty1 i1))).
Proof.
  intros H1 H2 Hc E1 E2. destruct (world_jacobian ty1 i1 H1) as (cd & mk & p1 & c & Ecd & _ & Emk & _ & _ & P1 & C1 & W1). destruct (world_jacobian ty2 i2 H2) as (cd' & mk' & p2 & c' & Ecd' & _ & Emk' & _ & _ & P2 & C2 & W2).
  rewrite Ecd in Ecd'. injection Ecd' as <-. rewrite Hc, Emk' in Emk. injection Emk as <-. rewrite Hc in C1. rewrite C2 in C1.
  assert (c' = c) as -> by (destruct c, c'; unfold v3_list in C1; cbn in C1; now injection C1 as -> -> ->).
  rewrite E1 in W1. apply Ok_inj in W1. rewrite E2 in W2. apply Ok_inj in W2. rewrite W1, W2, P1, P2.
  destruct (column_lin (lin_part cd mk' (v3_sub p1 c)) (ang_part cd mk') (seq 0 (m_nv m)) v) as [-> ->].
  destruct (column_lin (lin_part cd mk' (v3_sub p2 c)) (ang_part cd mk') (seq 0 (m_nv m)) v) as [-> ->]. split; [reflexivity|].
  set (A := fun f => dot (map (fun k => f (ang_part cd mk' k)) (seq 0 (m_nv m))) v).
  assert (L : forall off1 off2 k, lin_part cd mk' off2 k = v3_add (lin_part cd mk' off1 k) (cross (ang_part cd mk' k) (v3_sub off2 off1))).
  { intros o1 o2 k. unfold lin_part, ang_part. destruct (nth k mk' false); cbn [gate]; destruct (nth k cd (v3_zero, v3_zero)) as [[a1 a2 a3] [l1 l2 l3]], o1, o2; unfold v3_add, cross, v3_sub, v3_zero; cbn; f_equal; ring. }
  unfold cross3, vsub, vadd, vmap2, v3_list. cbn [map combine fst snd nth]. f_equal; [|f_equal; [|f_equal]].
  - rewrite (dot_lin4 (fun k => vx (lin_part cd mk' (v3_sub p1 c) k)) (fun k => vy (ang_part cd mk' k)) (fun k => vz (ang_part cd mk' k)) _ (vz p2 - vz p1) (vy p2 - vy p1)); [unfold A; ring|].
    intros k _. rewrite (L (v3_sub p1 c) (v3_sub p2 c)). destruct p1, p2, c. unfold v3_add, cross, v3_sub. cbn. ring.
  - rewrite (dot_lin4 (fun k => vy (lin_part cd mk' (v3_sub p1 c) k)) (fun k => vz (ang_part cd mk' k)) (fun k => vx (ang_part cd mk' k)) _ (vx p2 - vx p1) (vz p2 - vz p1)); [unfold A; ring|].
    intros k _. rewrite (L (v3_sub p1 c) (v3_sub p2 c)). destruct p1, p2, c. unfold v3_add, cross, v3_sub. cbn. ring.
  - rewrite (dot_lin4 (fun k => vz (lin_part cd mk' (v3_sub p1 c) k)) (fun k => vx (ang_part cd mk' k)) (fun k => vy (ang_part cd mk' k)) _ (vy p2 - vy p1) (vx p2 - vx p1)); [unfold A; ring|].
    intros k _. rewrite (L (v3_sub p1 c) (v3_sub p2 c)). destruct p1, p2, c. unfold v3_add, cross, v3_sub. cbn. ring.
Qed.
Lemma jacobian_rows ty i J : (i < count m ty)%nat -> get_frame_jacobian_world_aligned m d (Z.of_nat i) ty = Ok J ->
  is_mat (m_nv m) 6 J /\
  forall k, (k < m_nv m)%nat ->
    (~ in_subtree m (dof_body m k) (carrier m ty i) -> nth k J [] = vzero 6) /\
    (in_subtree m (dof_body m k) (carrier m ty i) ->
       let axis := firstn 3 (nth k (d_cdof d) []) in let shift := skipn 3 (nth k (d_cdof d) []) in
       let centre := nth (Z.to_nat (nth (carrier m ty i) (m_body_rootid m) 0%Z)) (d_subtree_com d) [] in
       nth k J [] = vadd shift (cross3 axis (vsub (position d ty i) centre)) ++ axis).
Proof.
  intros Hi HJ. destruct (world_jacobian ty i Hi) as (cd & mk & p & c & Ecd & Lcd & _ & _ & Smk & Pp & Pc & W). rewrite HJ in W. apply Ok_inj in W. rewrite W. clear W.
  split. { split; [now rewrite map_length, seq_length|]. apply Forall_forall. intros x Hx. apply in_map_iff in Hx. destruct Hx as (k & <- & _). reflexivity. }
  intros k Hk. set (F := fun k => v3_list (lin_part cd mk (v3_sub p c) k) ++ v3_list (ang_part cd mk k)).
  rewrite (nth_indep _ [] (F 0%nat)) by (now rewrite map_length, seq_length). rewrite map_nth, seq_nth by exact Hk. cbn [Nat.add]. unfold F, lin_part, ang_part.
  split.
  - intros N. assert (E : nth k mk false = false) by (destruct (nth k mk false) eqn:E; [elim N; now apply Smk|reflexivity]). rewrite E. reflexivity.
  - intros Y. apply (Smk k Hk) in Y. rewrite Y. cbn [gate]. destruct cdof_spec as (cd' & Ecd' & _ & S). rewrite Ecd in Ecd'. injection Ecd' as <-. rewrite (S k Hk).
    cbv zeta. rewrite Pp, Pc. destruct (nth k cd (v3_zero, v3_zero)) as [[a1 a2 a3] [l1 l2 l3]], p, c. reflexivity.
Qed.
End Frame.
