(** Automatic Jacobians: consequences; a sound differentiation procedure exists. *)
From Coq Require Import Lia.
From Coquelicot Require Import Coquelicot.
From Verif Require Import Base Lin Mjx Typing Component Problem SpecJoint SpecMotion SpecConf Rot Conf JaxComponents SpecTree SpecShape SpecDeriv LinFacts TreeFacts ConfThms MotionFacts MotionFacts2 ConfFacts ConfFacts2 ConfFacts3 ConfFacts4 DerivFacts DerivThms.
Open Scope R_scope.

Lemma kinematic_position L j : keeps_positions L (j_model j) -> (exists W lm o ty t, j_ext j = JTask W lm (JTPos o ty t)) \/ (exists s o ty lo hi li, j_ext j = JBarrier s (JBPos o ty lo hi li)) -> kinematic L j.
Proof.
  intros Hk H y Hy. destruct (Hk y) as (A & B & C). destruct H as [(W & lm & o & ty & t & E)|(s & o & ty & lo & hi & li & E)]; rewrite E; unfold call; rewrite E.
  - unfold call_pos, get_pos. now rewrite A, B, C.
  - unfold call_pbar, get_pos. now rewrite A, B, C.
Qed.
Lemma jx_head {A} (l : list A) d : l <> [] -> jx_idx l 0 = Ok (nth 0 l d).
Proof. intros H. destruct l as [|a l]; [contradiction|]. exact (jx_idx_in (a :: l) 0 d (Nat.lt_0_succ _)). Qed.
Lemma rows_v3 xs : mapM v3_of (map v3_list xs) = Ok xs.
Proof. induction xs as [|[x y z] xs IH]; [reflexivity|]. cbn. change (mapM v3_of (map v3_list xs)) with (mapM v3_of (map v3_list xs)). now rewrite IH. Qed.
Lemma all_bodies m : wf_tree m -> subtree_list m 0 (seq 0 (m_nbody m)).
Proof. intros Hw. split; [apply seq_NoDup|]. intros i. rewrite in_seq. split; [|lia]. intros H. split; [lia|]. apply root_subtree; [exact Hw|lia]. Qed.
Lemma kinematic_com L j : let m := j_model j in wf_model m -> com_is_mean L m -> nth_error (m_body_rootid m) 0 = Some 0%Z -> (exists W lm t, j_ext j = JTask W lm (JTCom t)) -> kinematic L j.
Proof.
  cbv zeta. intros Hm [HM Hk] H0 (W & lm & t & E) y Hy. rewrite E. destruct (Hk y Hy) as (xs & Hx & Lx & N2 & Eq). set (m := j_model j) in *.
  assert (U : exists d, com_update L m y = Ok d).
  { unfold com_update. rewrite Hx, rows_v3. cbn [bind]. destruct Hm as (_ & _ & _ & _ & _ & _ & _ & Lm). rewrite Lx, Lm, Nat.eqb_refl. eexists. reflexivity. }
  destruct U as [d Hd]. exists d. split; [exact Hd|]. unfold call. rewrite E. unfold call_com. fold m.
  pose proof Hm as (_ & Hw & _). assert (Hb : (0 < m_nbody m)%nat) by apply Hw.
  destruct (com_facts m xs L y d Hm Hd ltac:(rewrite Hx; apply rows_v3)) as [Mat C]. specialize (C 0%nat _ Hb (all_bodies m Hw)). cbv zeta in C. destruct C as [_ C].
  assert (Q : nth 0 (d_subtree_com d) [] = nth 0 (d_subtree_com (update L m y)) []) by (rewrite Eq; apply C; unfold negligible_mass; lra).
  assert (N1 : d_subtree_com d <> []) by (intros K; destruct Mat as [K2 _]; rewrite K in K2; cbn in K2; lia).
  destruct (m_body_rootid m) as [|r0 rs] eqn:R; [discriminate|]. injection H0 as ->.
  assert (NP : np_idx (0%Z :: rs) 0 = Ok 0%Z) by reflexivity. rewrite NP. cbn [bind]. rewrite !(jx_head _ []) by assumption. now rewrite Q.
Qed.

Lemma automatic_scalar L j k q v : let m := j_model j in sound_jac (l_jacrev L) -> automatic j -> kinematic L j -> wf_joints m -> smooth L j k q ->
  List.length q = m_nq m -> m_nq m = m_nv m -> keeps_scalars L m -> List.length v = m_nv m ->
  exists J, jacobian L j (update L m q) = Ok J /\ is_mat k (m_nv m) J /\
  forall i, (i < k)%nat -> derivative_at_0 (fun t => nth i (value_after L j q v t) 0) (nth i (mv J v) 0).
Proof.
  cbv zeta. intros Hs Ha Hk Hw Hsm Hq He Hks Hv. set (m := j_model j) in *.
  apply automatic_along_motion; auto; [now apply scalar_normalised| |now apply scalar_turns].
  destruct (Hks q Hq) as [Lq Aq]. fold m. apply list_ext; [congruence|]. intros i Hi. fold m in Lq. rewrite Lq in Hi.
  pose proof Hw as (_ & _ & _ & Hnq & Hnv & _). assert (S : Forall (fun t => is_scalar t = true) (m_jnt_type m)) by (apply all_scalar; congruence). rewrite Forall_forall in S.
  destruct (entries m i Hw Hi) as [(x & (t & Hj & Ht) & ->)|[(x & z & Hj & _)|(x & a & b & z & Hj & _)]].
  - exact (Aq x t Hj Ht).
  - exfalso. unfold free_joint, joint_type in Hj. apply nth_error_In in Hj. apply S in Hj. discriminate.
  - exfalso. destruct Hj as [[Hj _]|[Hj _]]; unfold joint_type in Hj; apply nth_error_In in Hj; apply S in Hj; discriminate.
Qed.
Lemma mv_vscale A k v : mv A (vscale k v) = vscale k (mv A v).
Proof. unfold mv, vscale. rewrite map_map. apply map_ext. intros r. apply dot_vscale_r. Qed.
Lemma turning_twice L j k q v : let m := j_model j in sound_jac (l_jacrev L) -> automatic j -> kinematic L j -> wf_joints m -> smooth L j k q ->
  List.length q = m_nq m -> normalised m q -> d_qpos (update L m q) = q -> List.length v = m_nv m -> only_turns m v ->
  exists J, jacobian L j (update L m q) = Ok J /\ is_mat k (m_nv m) J /\
  forall i, (i < k)%nat -> exists l, derivative_at_0 (fun t => nth i (value_after L j q v t) 0) l /\ nth i (mv J v) 0 = 2 * l.
Proof.
  cbv zeta. intros Hs Ha Hk Hw Hsm Hq Hn Hd Hv [Os Of]. set (m := j_model j) in *.
  destruct (automatic_along_motion L j k q (vscale (1 / 2) v) v) as (J & E & M & D); auto.
  - rewrite vscale_length. exact Hv.
  - split; [now rewrite vscale_length|]. fold m. split; [|split].
    + intros x Hx. rewrite nth_vscale, (Os x Hx). ring.
    + intros x Hx. pose proof (Of x Hx) as K. unfold vec_in in *. rewrite !nth_vscale. unfold v3_zero in *. injection K as K1 K2 K3. rewrite K1, K2, K3. f_equal; ring.
    + intros x a b Hx. unfold vec_in, v3_scale. cbn [vx vy vz]. rewrite !nth_vscale. f_equal; field.
  - exists J. split; [exact E|]. split; [exact M|]. intros i Hi. exists (nth i (mv J (vscale (1 / 2) v)) 0). split; [now apply D|]. rewrite mv_vscale, nth_vscale. field.
Qed.

(** ** A sound differentiation procedure *)
Definition entry_or (r : res (list R)) (i : nat) : R := match r with Ok y => nth i y 0 | Err _ => 0 end.
Definition true_jac (f : list R -> res (list R)) (x : list R) : res mat :=
  match f x with
  | Err e => Err e
  | Ok y => Ok (map (fun i => map (fun c => Derive (fun t => entry_or (f (replace_nth c t x)) i) (nth c x 0)) (seq 0 (List.length x))) (seq 0 (List.length y)))
  end.
Lemma rep_length {A} i (a : A) l : List.length (replace_nth i a l) = List.length l.
Proof. revert l. induction i; intros [|b l]; cbn; congruence. Qed.
Lemma replace_change c : forall (x g : vec) t, (c < List.length x)%nat -> List.length g = List.length x ->
  size (vsub (replace_nth c t x) x) = Rabs (t - nth c x 0) /\ dot g (vsub (replace_nth c t x) x) = nth c g 0 * (t - nth c x 0).
Proof.
  assert (Z : forall (x g : vec), size (vsub x x) = 0 /\ dot g (vsub x x) = 0).
  { intros x g. split; [apply size_self|]. revert g. induction x as [|a x IH]; intros [|b g]; cbn; try apply dot_nil_l; try apply dot_nil_r; try reflexivity. change (dot (b :: g) (a - a :: vsub x x) = 0). rewrite dot_cons, IH. ring. }
  induction c as [|c IH]; intros [|a x] [|b g] t Hc Hl; try (cbn in *; lia); cbn in Hc, Hl.
  - cbn [replace_nth nth]. change (vsub (t :: x) (a :: x)) with (t - a :: vsub x x). rewrite size_cons, dot_cons. destruct (Z x g) as [-> ->]. split; ring.
  - cbn [replace_nth nth]. change (vsub (a :: replace_nth c t x) (a :: x)) with (a - a :: vsub (replace_nth c t x) x). rewrite size_cons, dot_cons.
    destruct (IH x g t) as [-> ->]; [lia|lia|]. replace (a - a) with 0 by ring. rewrite Rabs_R0. split; ring.
Qed.
Lemma replace_same c : forall (x : vec), (c < List.length x)%nat -> replace_nth c (nth c x 0) x = x.
Proof. induction c as [|c IH]; intros [|a x] H; try (cbn in *; lia); cbn; [reflexivity|]. f_equal. apply IH. cbn in H. lia. Qed.
Lemma gradient_partial F x g c : has_gradient F x g -> List.length g = List.length x -> (c < List.length x)%nat -> derivable_pt_lim (fun t => F (replace_nth c t x)) (nth c x 0) (nth c g 0).
Proof.
  intros H Hl Hc eps He. destruct (H (eps / 2)) as (d & P & K); [lra|]. exists (mkposreal d P). cbn [pos]. intros h Hh Hs. rewrite (replace_same c x Hc).
  assert (Hs2 : Rabs (nth c x 0 + h - nth c x 0) < d) by (replace (nth c x 0 + h - nth c x 0) with h by ring; exact Hs).
  destruct (replace_change c x g (nth c x 0 + h) Hc Hl) as [S D]. specialize (K (replace_nth c (nth c x 0 + h) x) (rep_length _ _ _)). rewrite S in K. specialize (K Hs2). rewrite D in K.
  replace (nth c x 0 + h - nth c x 0) with h in K by ring. pose proof (Rabs_pos_lt h Hh) as Ph. apply Rmult_lt_reg_r with (Rabs h); [exact Ph|]. rewrite <- Rabs_mult.
  replace (((F (replace_nth c (nth c x 0 + h) x) - F x) / h - nth c g 0) * h) with (F (replace_nth c (nth c x 0 + h) x) - F x - nth c g 0 * h) by (field; exact Hh). nra.
Qed.
Lemma nth_map_seq_in {A} (f : nat -> A) n i d : (i < n)%nat -> nth i (map f (seq 0 n)) d = f i.
Proof. intros H. rewrite nth_indep with (d' := f 0%nat) by now rewrite map_length, seq_length. rewrite map_nth, seq_nth by exact H. reflexivity. Qed.
Lemma true_jac_sound : sound_jac true_jac.
Proof.
  intros f F x k M Hf [LM CM] HJ. unfold true_jac. destruct (Hf x eq_refl) as [-> Lk]. f_equal. rewrite Lk. apply nth_ext with (d := []) (d' := []); [now rewrite map_length, seq_length|].
  intros i Hi. rewrite map_length, seq_length in Hi. rewrite nth_map_seq_in by exact Hi. rewrite Forall_forall in CM.
  assert (Lr : List.length (nth i M []) = List.length x) by (apply CM, nth_In; lia).
  apply nth_ext with (d := 0) (d' := 0); [now rewrite map_length, seq_length|]. intros c Hc. rewrite map_length, seq_length in Hc. rewrite nth_map_seq_in by exact Hc.
  apply is_derive_unique. apply is_derive_Reals.
  assert (G := gradient_partial _ x _ c (HJ i ltac:(lia)) Lr Hc). cbv beta in G.
  intros eps He. destruct (G eps He) as (d & K). exists d. intros h Hh Hs. specialize (K h Hh Hs). unfold entry_or.
  rewrite (proj1 (Hf (replace_nth c (nth c x 0 + h) x) (rep_length _ _ _))), (proj1 (Hf (replace_nth c (nth c x 0) x) (rep_length _ _ _))). exact K.
Qed.
