(** Shapes of the arrays of compiled components. *)
From Verif Require Import Base Lin LinFacts Mjx Typing Component Problem SpecComponent SpecJoint SpecHistory SpecCollision SpecTree SpecShape SpecContact SpecSelf SpecMotion SpecConf Rot Conf FrameJac Collide JaxComponents LocalIK SpecProblem SpecValue SpecFit.
From Verif Require Import ComponentFacts ComponentFacts2 ApiSteps JointFacts BindFacts BindFacts2 BindFacts3 CoreFacts CompThms BindThms BindThms2 CollideFacts CollideFacts2 CollideFacts3 CollideFacts4.
From Verif Require Import QPFacts MotionFacts MotionFacts2 FrameFacts ConfFacts ConfFacts3 ConfThms ValueFacts ValueFacts2 ValueFacts3 ValueFacts4.
Open Scope R_scope.

(** ** Gain and weight *)
Lemma wf_core_history os : Forall wf_call os -> forall c, wf_core (c_at c) -> wf_core (c_at (history os c)).
Proof. induction 1 as [|o os Ho _ IH]; intros c Hc; [exact Hc|]. cbn. apply IH. now apply wf_core_after. Qed.
Lemma vector_gain_dim a g : vector_gain a = Ok g -> a_dim a = Z.of_nat (List.length g).
Proof.
  unfold vector_gain, dim. destruct (a_dim a =? -1)%Z eqn:E; [discriminate|]. destruct (ndim (a_gain a)) as [|[|]]; [|..|discriminate]; cbn [bind].
  - unfold zsize. destruct (a_dim a <? 0)%Z eqn:E2; [discriminate|]. cbn [bind]. destruct (scalar_of _); [|discriminate]. cbn [bind]. intros H. injection H as <-. rewrite vconst_length. apply Z.ltb_ge in E2. lia.
  - destruct (negb _) eqn:E2; [discriminate|]. intros H. injection H as <-. apply negb_false_iff, Z.eqb_eq in E2. congruence.
Qed.
Lemma gain_weight c os j : constructed c -> wf_arrays (c_at c) -> Forall wf_call os -> compiles (history os c) j ->
  j_dim j = Z.of_nat (List.length (j_gain j)) /\
  match j_ext j with JTask W _ _ | JConstraint _ _ W _ => is_mat (List.length (j_gain j)) (List.length (j_gain j)) W | JBarrier _ _ => True end.
Proof.
  intros Hc Hw Ho Hj. apply published_reachable in Hj; [|exact Hc]. destruct Hj as (P1 & P2 & P3 & P4 & _ & _ & P7).
  assert (D := vector_gain_dim _ _ P4). split; [congruence|].
  assert (W : wf_core (c_at (history os c))). { apply wf_core_history; [exact Ho|]. destruct Hw as [W1 W2]. split; [exact W1|]. destruct (a_ext (c_at c)); auto. }
  destruct W as [_ W]. inversion P7; try exact I; match goal with X : a_ext _ = _ |- _ => rewrite X in W end.
  1-5: match goal with X : matrix_cost _ = Ok _ |- _ => eapply matrix_cost_iff in X; eauto; exact (proj1 X) end.
  1-2: match goal with X : soft_constraint_cost _ = Ok ?W0 |- _ => destruct soft as [t|];
       [eapply soft_cost_some in X; eauto; exact (proj1 X)
       |match goal with Y : a_ext _ = _ |- _ => destruct (soft_cost_none _ _ _ _ _ Y D) as (W' & E & C) end; rewrite E in X; injection X as <-; exact (proj1 C)] end.
Qed.

(** ** Gathering with clamped indices *)
Lemma jx_idx_total {A} (l : list A) i : l <> [] -> exists x, jx_idx l i = Ok x /\ In x l.
Proof.
  intros H. unfold jx_idx. set (k := Z.to_nat _). destruct (nth_error l k) as [x|] eqn:E; [exists x; split; [reflexivity|eapply nth_error_In; exact E]|].
  apply nth_error_None in E. destruct l as [|y l]; [congruence|]. unfold k in E. cbn [List.length] in E. lia.
Qed.
Lemma gather_total {A} (l : list A) idx (P : A -> Prop) : l <> [] -> Forall P l -> exists r, jx_gather l idx = Ok r /\ List.length r = List.length idx /\ Forall P r.
Proof.
  intros H F. unfold jx_gather. induction idx as [|i idx (r & E & Ln & Fr)]; [exists []; repeat split; constructor|].
  destruct (jx_idx_total l i H) as (x & Ex & Hx). exists (x :: r). cbn [mapM]. rewrite Ex, E. cbn [bind]. split; [reflexivity|]. split; [cbn; now rewrite Ln|]. constructor; [|exact Fr]. rewrite Forall_forall in F. auto.
Qed.
Lemma gather_vec (l : vec) idx : l <> [] -> exists r, jx_gather l idx = Ok r /\ List.length r = List.length idx.
Proof. intros H. destruct (gather_total l idx (fun _ => True) H) as (r & E & Ln & _); [apply Forall_forall; auto|]. eauto. Qed.
Lemma length_pos {A} (l : list A) n : List.length l = S n -> l <> []. Proof. intros H ->. discriminate. Qed.
Lemma bc2_length f a b n : List.length a = n -> List.length b = n -> exists r, bc2 f a b = Ok r /\ List.length r = n.
Proof. intros Ha Hb. rewrite bc2_eq by congruence. eexists. split; [reflexivity|]. unfold vmap2. rewrite map_length, combine_length. lia. Qed.
Lemma last_dim_tvec v n : last_dim (tvec v) = Ok n -> List.length v = n.
Proof. intros H. pose proof (last_dim_vec v). congruence. Qed.

(** ** Automatic Jacobians *)
Lemma to_velocity_ok m d J n : wf_joints m -> List.length (d_qpos d) = m_nq m -> is_mat n (m_nq m) J -> exists J', to_velocity m d J = Ok J' /\ is_mat n (m_nv m) J'.
Proof.
  intros Hm Hd HJ. unfold to_velocity. destruct (Nat.eqb_spec (m_nq m) (m_nv m)) as [E|E]; [exists J; split; [reflexivity|now rewrite <- E]|].
  destruct (jac_dq2v_spec m (d_qpos d) Hm Hd) as (E0 & -> & HE & _). cbn [bind]. rewrite (proj1 HJ). assert (B : is_matb n (m_nq m) J = true) by (now apply is_matb_spec). rewrite B.
  eexists. split; [reflexivity|]. eapply mm_is_mat; [exact (proj1 HJ)|exact HE].
Qed.
Lemma auto_jac L j d n : sound_lib L (j_model j) -> wf_joints (j_model j) -> wf_data (j_model j) d ->
  (forall d', wf_data (j_model j) d' -> exists e, call L j d' = Ok e /\ List.length e = n) ->
  exists J, jac_auto L j d = Ok J /\ is_mat n (m_nv (j_model j)) J.
Proof.
  intros [HK HJ] Hw Hd Hc. pose proof Hd as (Hq & _). unfold jac_auto.
  destruct (HJ (fun q => call L j (kin L (j_model j) q)) (d_qpos d) n) as (J & -> & FJ). { intros x Hx. apply Hc. apply HK. congruence. }
  cbn [bind]. apply to_velocity_ok; [exact Hw|exact Hq|]. now rewrite Hq in FJ.
Qed.

(** ** Kind by kind *)
Definition fits_n (L : lib) (j : jaxc) (d : mjdata) (n : nat) : Prop :=
  (exists e, call L j d = Ok e /\ List.length e = n) /\ (exists J, jacobian L j d = Ok J /\ is_mat n (m_nv (j_model j)) J).
Lemma sound_wf m : sound_model m -> wf_joints m. Proof. intros ((H & _) & _). exact H. Qed.
Lemma position_fits L mk on ty j d : position_task mk on ty j -> sound_lib L (j_model j) -> wf_data (j_model j) d -> accepted L d j -> fits_n L j d (List.length (axes 3 mk)).
Proof.
  intros Hj HL Hd Ha. destruct (position_task_facts _ _ _ _ Hj) as (S & D & Mi & G & W & lm & t & i & E & Ho & T). unfold accepted in Ha. rewrite E in Ha. destruct Ha as [Hp (v & ->)].
  destruct (named_object _ _ _ _ S Hp Ho) as (k & -> & Hk). apply last_dim_tvec in T.
  assert (V : forall d', wf_data (j_model j) d' -> exists e, call L j d' = Ok e /\ List.length e = List.length (axes 3 mk)).
  { intros d' Hd'. unfold call. rewrite E. unfold call_pos. destruct (get_pos_spec _ _ _ _ Hd' Hp Hk) as [-> Lp]. cbn [bind]. rewrite Mi.
    destruct (gather_vec (position d' ty k) (map Z.of_nat (axes 3 mk)) (length_pos _ _ Lp)) as (x & -> & Lx). rewrite map_length in Lx. cbn [bind vec_of]. cbn. apply bc2_length; assumption. }
  split; [auto|]. unfold jacobian. rewrite E. apply auto_jac; auto. now apply sound_wf.
Qed.
Lemma com_value_fits L mk j d : com_task mk j -> sound_model (j_model j) -> is_mat (m_nbody (j_model j)) 3 (d_subtree_com d) -> accepted L d j -> exists e, call L j d = Ok e /\ List.length e = List.length (axes 3 mk).
Proof.
  intros Hj Sm Hd Ha. destruct (com_task_facts _ _ Hj) as (S & D & Mi & G & W & lm & t & E & T). unfold accepted in Ha. rewrite E in Ha. destruct Ha as (v & ->). apply last_dim_tvec in T.
  unfold call. rewrite E. unfold call_com. pose proof S as ((Hj1 & Ht & Hdf & Lr & Fr & _) & _ & _ & _ & _ & _ & R0).
  assert (N : (0 < m_nbody (j_model j))%nat) by (destruct Ht as (X & _); lia).
  rewrite (np_idx_Z _ _ 0%Z) by (unfold in_range; lia). cbn [bind]. change (Z.to_nat 0) with 0%nat. rewrite R0.
  assert (J0 : jx_idx (d_subtree_com d) 0 = Ok (nth 0 (d_subtree_com d) [])). { rewrite (jx_idx_Z _ _ []) by (unfold in_range; rewrite (proj1 Hd); lia). reflexivity. }
  rewrite J0. cbn [bind]. rewrite Mi. assert (Ln := mat_in _ 0 Hd N).
  destruct (gather_vec _ (map Z.of_nat (axes 3 mk)) (length_pos _ _ Ln)) as (x & -> & Lx). rewrite map_length in Lx. cbn [bind vec_of]. cbn. apply bc2_length; assumption.
Qed.
Lemma com_update_ok L m q : sound_model m -> wf_data m (kin L m q) -> exists d, com_update L m q = Ok d /\ is_mat (m_nbody m) 3 (d_subtree_com d).
Proof.
  intros Sm Hd. pose proof Hd as (_ & _ & _ & _ & Xi & _). assert (exists xs, mapM v3_of (d_xipos (kin L m q)) = Ok xs) as [xs Hx].
  { apply mapM_total. intros r Hr. destruct Xi as [_ F]. rewrite Forall_forall in F. specialize (F r Hr). destruct r as [|a [|b [|c [|]]]]; cbn in F; try lia. cbn. eauto. }
  assert (exists d, com_update L m q = Ok d) as [d Ed].
  { unfold com_update. rewrite Hx. cbn [bind]. assert (List.length xs = List.length (m_body_mass m)) as ->; [|rewrite Nat.eqb_refl; cbn; eauto].
    rewrite (mapM_length _ _ _ Hx), (proj1 Xi). destruct Sm as ((_ & _ & _ & _ & _ & _ & _ & E) & _). now symmetry. }
  exists d. split; [exact Ed|]. destruct Sm as (Hm & _). exact (proj1 (com_facts m xs L q d Hm Ed Hx)).
Qed.
Lemma com_fits L mk j d : com_task mk j -> sound_lib L (j_model j) -> wf_data (j_model j) d -> accepted L d j -> fits_n L j d (List.length (axes 3 mk)).
Proof.
  intros Hj HL Hd Ha. destruct (com_task_facts _ _ Hj) as (S & D & Mi & G & W & lm & t & E & T).
  split. { apply com_value_fits; auto. now destruct Hd as (_ & _ & _ & _ & _ & _ & _ & _ & _ & X & _). }
  unfold jacobian. rewrite E. unfold jac_com. destruct HL as [HK HJ]. pose proof Hd as (Hq & _).
  destruct (HJ (fun q => do d' <- com_update L (j_model j) q; call L j d') (d_qpos d) (List.length (axes 3 mk))) as (J & -> & FJ).
  { intros x Hx. destruct (com_update_ok L (j_model j) x S (HK x ltac:(congruence))) as (d' & -> & Hd'). cbn [bind]. apply com_value_fits; auto. unfold accepted in *. rewrite E in *. exact Ha. }
  cbn [bind]. apply to_velocity_ok; [now apply sound_wf|exact Hq|]. now rewrite Hq in FJ.
Qed.
Lemma se3_log_length eps T : List.length (se3_log eps T) = 6%nat. Proof. reflexivity. Qed.
Lemma get_frame_total m d ty i : wf_data m d -> has_pose ty -> (i < count m ty)%nat -> exists f, get_frame d (Z.of_nat i) ty = Ok f.
Proof.
  intros Hd Hp Hi. unfold get_frame, get_rotation. destruct (object_mat_spec m d Hd ty i Hi) as (M & -> & _). cbn [bind]. destruct (get_pos_spec m d ty i Hd Hp Hi) as [-> Lp]. cbn [bind].
  destruct (position d ty i) as [|a [|b [|c [|]]]]; cbn in Lp; try lia. cbn. eauto.
Qed.
Lemma mneg_is_mat' r c A : is_mat r c A -> is_mat r c (mneg A).
Proof. intros [A1 A2]. split; [unfold mneg; now rewrite map_length|]. unfold mneg. apply Forall_map. eapply Forall_impl; [|exact A2]. intros x Hx. unfold vneg. now rewrite map_length. Qed.
Lemma frame_fits L mk on ty j d : frame_task mk on ty j -> sound_lib L (j_model j) -> wf_data (j_model j) d -> accepted L d j -> fits_n L j d (List.length (axes 6 mk)).
Proof.
  intros Hj [HK HJ] Hd Ha. destruct (frame_task_facts _ _ _ _ Hj) as (S & D & Mi & G & W & lm & t & i & E & Ho). unfold accepted in Ha. rewrite E in Ha. destruct Ha as [Hp (v & -> & Lv)].
  destruct (named_object _ _ _ _ S Hp Ho) as (k & -> & Hk). destruct (get_frame_total _ _ _ _ Hd Hp Hk) as (f & Ef).
  assert (exists T, se3_of v = Ok T) as [T HT]. { destruct v as [|a1 [|a2 [|a3 [|a4 [|a5 [|a6 [|a7 [|]]]]]]]]; cbn in Lv; try lia. cbn. eauto. }
  split.
  - unfold call. rewrite E. unfold call_frame. rewrite Ef. cbn [bind vec_of ndim t_shape tvec List.length t_data]. rewrite HT. cbn [bind]. rewrite Mi.
    destruct (gather_vec (se3_log (l_eps L) (se3_mul (se3_inv f) T)) (map Z.of_nat (axes 6 mk)) (length_pos _ 5 (se3_log_length _ _))) as (r & -> & Lr). rewrite map_length in Lr. eauto.
  - unfold jacobian. rewrite E. unfold jac_frame. cbn [bind vec_of ndim t_shape tvec List.length t_data]. rewrite HT. cbn [bind]. rewrite Ef. cbn [bind]. pose proof S as (Hm & _). pose proof Hm as (_ & Ht & Hdf & _).
    destruct (world_jacobian (j_model j) d Hm Hd ty k Hk) as (cd & mk0 & p & c & _ & _ & _ & _ & _ & _ & _ & EJ).
    destruct (local_jacobian (j_model j) d Hm Hd ty k _ Hk EJ) as (F & EF & F'). rewrite EF. cbn [bind].
    destruct (HJ (fun tau => do e <- se3_exp (l_eps L) tau; Ok (se3_log (l_eps L) (se3_mul (se3_mul (se3_inv T) (se3_inv f)) e))) (vzero 6) 6%nat) as (Jl & -> & HJl).
    { intros x Hx. cbn in Hx. destruct x as [|a1 [|a2 [|a3 [|a4 [|a5 [|a6 [|]]]]]]]; cbn in Hx; try lia. cbn [se3_exp bind]. cbv zeta. eexists. split; [reflexivity|apply se3_log_length]. }
    cbn [bind]. cbv zeta. assert (LF : List.length F = m_nv (j_model j)) by (rewrite F'; now rewrite !map_length, seq_length). rewrite LF, Mi.
    assert (MM : is_mat 6 (m_nv (j_model j)) (mm (m_nv (j_model j)) (mneg Jl) (tr 6 F))).
    { eapply mm_is_mat; [unfold mneg; rewrite map_length; exact (proj1 HJl)|]. rewrite <- LF. apply tr_is_mat. }
    destruct (gather_total _ (map Z.of_nat (axes 6 mk)) _ (length_pos _ 5 (proj1 MM)) (proj2 MM)) as (r & Er & Lr & Fr). rewrite map_length in Lr. exists r. split; [exact Er|]. split; [exact Lr|exact Fr].
Qed.
Lemma pbar_fits L mk on ty lts j d : position_barrier mk on ty lts j -> sound_lib L (j_model j) -> wf_data (j_model j) d -> accepted L d j -> fits_n L j d (barrier_size lts (List.length (axes 3 mk))).
Proof.
  intros Hj HL Hd Ha. destruct (position_barrier_facts _ _ _ _ _ Hj) as (S & Mi & G & D & lt & sdg & lo & hi & i & -> & Bs & E & Ho & Tl & Th & _). unfold accepted in Ha. rewrite E in Ha. destruct Ha as (Hp & (l & ->) & (h & ->)).
  destruct (named_object _ _ _ _ S Hp Ho) as (k & -> & Hk). apply last_dim_tvec in Tl. apply last_dim_tvec in Th.
  assert (V : forall d', wf_data (j_model j) d' -> exists e, call L j d' = Ok e /\ List.length e = barrier_size (lt_name lt) (List.length (axes 3 mk))).
  { intros d' Hd'. unfold call. rewrite E. unfold call_pbar. destruct (get_pos_spec _ _ _ _ Hd' Hp Hk) as [-> Lp]. cbn [bind]. rewrite Mi.
    destruct (gather_vec (position d' ty k) (map Z.of_nat (axes 3 mk)) (length_pos _ _ Lp)) as (x & -> & Lx). rewrite map_length in Lx. cbn [bind vec_of ndim t_shape tvec List.length t_data].
    destruct (bc2_length Rminus x l _ Lx Tl) as (a & -> & La). destruct (bc2_length Rminus h x _ Th Lx) as (b & -> & Lb). cbn [bind]. rewrite (pick_sides a b _ lt La Lb).
    eexists. split; [reflexivity|]. rewrite Bs. destruct lt; cbn [pb_dim]; rewrite ?app_length; lia. }
  split; [auto|]. unfold jacobian. rewrite E. apply auto_jac; auto. now apply sound_wf.
Qed.
