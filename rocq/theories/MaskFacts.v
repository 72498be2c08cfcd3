(** Values and Jacobians of masked tasks. *)
From Verif Require Import Base Lin LinFacts Mjx Typing Component Problem SpecComponent SpecJoint SpecHistory Rot Conf FrameJac Collide JaxComponents.
From Verif Require Import SpecCollision SpecTree SpecShape SpecContact SpecSelf SpecConf SpecMotion SpecValue LocalIK SpecQP SpecSolve SpecDeriv SpecMask.
From Verif Require Import BindFacts MotionFacts2 FrameFacts ValueFacts ValueFacts2 ValueFacts3 ValueFacts4 ValueThms ConfFacts3 DerivThms.
Open Scope R_scope.

Lemma gather_map {A} (l : list A) idx x as_ d : jx_gather l idx = Ok x -> Forall (fun a => (a < List.length idx)%nat) as_ ->
  jx_gather l (map (fun a => nth a idx 0%Z) as_) = Ok (map (fun a => nth a x d) as_).
Proof.
  intros H F. unfold jx_gather in *. induction F as [|a as_ Ha _ IH]; [reflexivity|]. cbn [map mapM]. rewrite (mapM_nth _ _ _ 0%Z d a H Ha). cbn [bind]. now rewrite IH.
Qed.
Lemma seq_idx n as_ : Forall (fun a => (a < n)%nat) as_ -> map (fun a => nth a (map Z.of_nat (seq 0 n)) 0%Z) as_ = map Z.of_nat as_.
Proof.
  intros F. apply map_ext_in. intros a Ha. rewrite Forall_forall in F. specialize (F a Ha). change 0%Z with (Z.of_nat 0) at 1. rewrite map_nth, seq_nth by exact F. reflexivity.
Qed.
Lemma gather_sub {A} (l : list A) n x as_ d : jx_gather l (map Z.of_nat (seq 0 n)) = Ok x -> Forall (fun a => (a < n)%nat) as_ ->
  jx_gather l (map Z.of_nat as_) = Ok (map (fun a => nth a x d) as_).
Proof.
  intros H F. rewrite <- (seq_idx n as_ F). apply gather_map; [exact H|]. now rewrite map_length, seq_length.
Qed.
Lemma gather_len {A} (l : list A) idx x : jx_gather l idx = Ok x -> List.length x = List.length idx.
Proof. apply mapM_length. Qed.

Lemma nth_vsub i : forall a b : vec, List.length a = List.length b -> nth i (vsub a b) 0 = nth i a 0 - nth i b 0.
Proof.
  induction i as [|i IH]; intros [|x a] [|y b] H; try discriminate; cbn; try lra; injection H as H. now apply (IH a b).
Qed.
Lemma coords_vsub as_ a b : List.length a = List.length b -> coords as_ (vsub a b) = vsub (coords as_ a) (coords as_ b).
Proof. intros H. unfold coords. induction as_ as [|k r IH]; [reflexivity|]. cbn [map]. rewrite IH, nth_vsub by exact H. reflexivity. Qed.
Lemma minus_sub as_ (x t e : vec) : bc2 Rminus x t = Ok e -> List.length t = List.length x -> bc2 Rminus (coords as_ x) (coords as_ t) = Ok (coords as_ e).
Proof.
  intros H L. rewrite bc2_eq in H by auto. injection H as <-. rewrite bc2_eq by now rewrite !coords_length. f_equal. symmetry. apply (coords_vsub as_ x t). auto.
Qed.
Lemma target_pos j W lm o ty t t' : j_ext j = JTask W lm (JTPos o ty t') -> target_is j t -> t' = tvec t.
Proof. intros E [(a & b & E')|(a & b & c & d & E')]; rewrite E in E'; [discriminate|]. now injection E'. Qed.
Lemma target_com j W lm t t' : j_ext j = JTask W lm (JTCom t') -> target_is j t -> t' = tvec t.
Proof. intros E [(a & b & E')|(a & b & c & d & E')]; rewrite E in E'; [|discriminate]. now injection E'. Qed.
Lemma same_object m ty s i k : sound_model m -> has_object m ty s i -> has_object m ty s k -> k = i.
Proof. intros (_ & _ & _ & (_ & U) & _) A B. exact (U _ _ _ _ B A). Qed.
Lemma vec_of_tvec t : vec_of (tvec t) = Ok t. Proof. reflexivity. Qed.

(** Joint masks. *)
Lemma combine_nth_map {A B} (l : list A) (f : list B) a b : List.length l = List.length f -> combine l f = map (fun i => (nth i l a, nth i f b)) (seq 0 (List.length f)).
Proof.
  intros H. apply (nth_ext _ _ (a, b) (a, b)); [rewrite combine_length, map_length, seq_length; lia|]. intros k Hk. rewrite combine_length in Hk. rewrite combine_nth by exact H.
  rewrite (nth_indep _ (a, b) ((fun i => (nth i l a, nth i f b)) 0%nat)) by (rewrite map_length, seq_length; lia). rewrite (map_nth (fun i => (nth i l a, nth i f b))), seq_nth by lia. reflexivity.
Qed.
Lemma filter_map_comm {A B} (g : A -> B) (p : B -> bool) l : filter p (map g l) = map g (filter (fun x => p (g x)) l).
Proof. induction l as [|x l IH]; [reflexivity|]. cbn. destruct (p (g x)); cbn; now rewrite IH. Qed.
Lemma selected_axes m f : mask_fits m (Some f) -> selected m (Some f) = map (fun a => nth a (selected m None) 0%nat) (joint_axes m (Some f)).
Proof.
  intros H. unfold selected, joint_axes, axes, mask_fits, n_scalar in *. cbn [option_map mvec mk_data]. rewrite (combine_nth_map _ f 0%nat 0%Z) by auto.
  rewrite filter_map_comm, map_map. reflexivity.
Qed.
Lemma joint_axes_in m f : mask_fits m (Some f) -> Forall (fun a => (a < List.length (selected m None))%nat) (joint_axes m (Some f)).
Proof.
  intros H. apply Forall_forall. intros a Ha. unfold joint_axes, axes in Ha. cbn in Ha. apply filter_In in Ha as [Ha _]. apply in_seq in Ha. unfold mask_fits, n_scalar in H. cbn. lia.
Qed.
Lemma map_sub {B} (h : nat -> B) d (l as_ : list nat) : Forall (fun a => (a < List.length l)%nat) as_ -> map h (map (fun a => nth a l 0%nat) as_) = map (fun a => nth a (map h l) d) as_.
Proof.
  intros F. rewrite map_map. apply map_ext_in. intros a Ha. rewrite Forall_forall in F. specialize (F a Ha). rewrite (nth_indep _ d (h 0%nat)) by (rewrite map_length; exact F). now rewrite map_nth.
Qed.

Lemma masked_value L as_ j j' d e : masked as_ j j' -> j_model j' = j_model j -> call L j d = Ok e -> call L j' d = Ok (coords as_ e).
Proof.
  intros [mk on ty q p Hj Hj' Hp Hm -> Ht Ht'|mk on ty t Hj Hj' Hp Hm -> Ht Ht'|mk t Hj Hj' Hm -> Ht Ht'|f t Hj Hj' -> Ht Ht'] Em C.
  - destruct (frame_task_facts _ _ _ _ Hj) as (S & _ & M & _ & W & lm & t & i & E & Hi). destruct (frame_task_facts _ _ _ _ Hj') as (S' & _ & M' & _ & W' & lm' & t' & i' & E' & Hi').
    destruct Ht as (_ & a & b & c & g & F). rewrite E in F. injection F as <- <- <- <- ->. destruct Ht' as (_ & a' & b' & c' & g' & F). rewrite E' in F. injection F as <- <- <- <- ->.
    rewrite Em in Hi'. pose proof (same_object _ _ _ _ _ S Hi Hi') as ->. unfold call in *. rewrite E in C. rewrite E'. unfold call_frame in *.
    destruct (get_frame d i ty) as [fr|]; [|discriminate]. cbn [bind] in *. destruct (vec_of _) as [tl|]; [|discriminate]. cbn [bind] in *. destruct (se3_of tl) as [tt|]; [|discriminate]. cbn [bind] in *.
    rewrite M in C. rewrite M'. exact (gather_sub _ 6 e (axes 6 mk) 0 C (axes_within 6 mk Hm)).
  - destruct (position_task_facts _ _ _ _ Hj) as (S & _ & M & _ & W & lm & u & i & E & Hi & Lu). destruct (position_task_facts _ _ _ _ Hj') as (S' & _ & M' & _ & W' & lm' & u' & i' & E' & Hi' & Lu').
    pose proof (target_pos _ _ _ _ _ _ _ E Ht) as ->. pose proof (target_pos _ _ _ _ _ _ _ E' Ht') as ->. rewrite last_dim_vec in Lu. injection Lu as Lu.
    rewrite Em in Hi'. pose proof (same_object _ _ _ _ _ S Hi Hi') as ->. unfold call in *. rewrite E in C. rewrite E'. unfold call_pos in *.
    destruct (get_pos d i ty) as [x|]; [|discriminate]. cbn [bind] in *. rewrite M in C. rewrite M'. destruct (jx_gather x (map Z.of_nat (axes 3 None))) as [y|] eqn:G; [|discriminate]. cbn [bind] in C.
    rewrite (gather_sub _ 3 y (axes 3 mk) 0 G (axes_within 3 mk Hm)). cbn [bind]. rewrite vec_of_tvec in *. cbn [bind] in *. apply minus_sub; [exact C|]. rewrite (gather_len _ _ _ G), map_length. exact Lu.
  - pose proof Hj' as (name & cost & gain & gf & lm0 & c & Hn & _). pose proof (com_task_within _ _ _ _ _ _ _ Hn Hm) as Hk.
    destruct (com_task_facts _ _ Hj) as (S & _ & M & _ & W & lm & u & E & Lu). destruct (com_task_facts _ _ Hj') as (S' & _ & M' & _ & W' & lm' & u' & E' & Lu').
    pose proof (target_com _ _ _ _ _ E Ht) as ->. pose proof (target_com _ _ _ _ _ E' Ht') as ->. rewrite last_dim_vec in Lu. injection Lu as Lu.
    unfold call in *. rewrite E in C. rewrite E', Em. unfold call_com in *. destruct (np_idx (m_body_rootid (j_model j)) 0) as [r|]; [|discriminate]. cbn [bind] in *. destruct (jx_idx (d_subtree_com d) r) as [x|]; [|discriminate]. cbn [bind] in *.
    rewrite M in C. rewrite M'. destruct (jx_gather x (map Z.of_nat (axes 3 None))) as [y|] eqn:G; [|discriminate]. cbn [bind] in C.
    rewrite (gather_sub _ 3 y (axes 3 mk) 0 G (axes_within 3 mk Hk)). cbn [bind]. rewrite vec_of_tvec in *. cbn [bind] in *. apply minus_sub; [exact C|]. rewrite (gather_len _ _ _ G), map_length. exact Lu.
  - destruct (joint_task_facts _ _ Hj) as (Hw & _ & _ & _ & _ & W & lm & u & E & Lu). destruct (joint_task_facts _ _ Hj') as (_ & Hf & _ & _ & _ & W' & lm' & u' & E' & Lu').
    destruct Ht as (a & b & qi & F). rewrite E in F. injection F as <- <- -> <-. destruct Ht' as (a' & b' & qi' & F). rewrite E' in F. injection F as <- <- -> <-. rewrite last_dim_vec in Lu. injection Lu as Lu.
    unfold call in *. rewrite E in C. rewrite E', Em. rewrite Em in Hf. unfold call_joint in *. destruct (jx_gather (d_qpos d) (qidx_of (j_model j) None)) as [y|] eqn:G; [|discriminate]. cbn [bind] in C.
    assert (Q : qidx_of (j_model j) (Some f) = map (fun a => nth a (qidx_of (j_model j) None) 0%Z) (joint_axes (j_model j) (Some f))).
    { unfold qidx_of at 1. rewrite selected_axes by exact Hf. apply map_sub. now apply joint_axes_in. }
    rewrite Q. rewrite (gather_map _ _ y _ 0 G) by (unfold qidx_of; rewrite map_length; now apply joint_axes_in). cbn [bind]. rewrite vec_of_tvec in *. cbn [bind] in *.
    apply minus_sub; [exact C|]. rewrite (gather_len _ _ _ G). unfold qidx_of. rewrite map_length. exact Lu.
Qed.

(** Row selection commutes with everything done to a Jacobian. *)
Lemma rows_length as_ J : List.length (rows_at as_ J) = List.length as_. Proof. apply map_length. Qed.
Lemma nth_rows as_ J i : (i < List.length as_)%nat -> nth i (rows_at as_ J) [] = nth (nth i as_ 0%nat) J [].
Proof. intros H. unfold rows_at. set (F := fun a => nth a J []). rewrite (nth_indep _ [] (F 0%nat)) by (rewrite map_length; exact H). rewrite map_nth. reflexivity. Qed.
Lemma nth_coords as_ x i : (i < List.length as_)%nat -> nth i (coords as_ x) 0 = nth (nth i as_ 0%nat) x 0.
Proof. intros H. unfold coords. set (F := fun a => nth a x 0). rewrite (nth_indep _ 0 (F 0%nat)) by (rewrite map_length; exact H). rewrite map_nth. reflexivity. Qed.
Lemma rows_mat k n as_ J : is_mat k n J -> Forall (fun a => (a < k)%nat) as_ -> is_mat (List.length as_) n (rows_at as_ J).
Proof.
  intros [H1 H2] F. split; [apply rows_length|]. apply Forall_forall. intros r Hr. apply in_map_iff in Hr as (a & <- & Ha). rewrite Forall_forall in F, H2. apply H2, nth_In. rewrite H1. now apply F.
Qed.
Lemma rows_map (g : vec -> vec) k as_ (J : mat) : List.length J = k -> Forall (fun a => (a < k)%nat) as_ -> rows_at as_ (map g J) = map g (rows_at as_ J).
Proof.
  intros <- F. unfold rows_at. rewrite map_map. apply map_ext_in. intros a Ha. rewrite Forall_forall in F. specialize (F a Ha). rewrite (nth_indep _ [] (g [])) by (rewrite map_length; exact F). now rewrite map_nth.
Qed.
Lemma mv_rows k as_ J v : List.length J = k -> Forall (fun a => (a < k)%nat) as_ -> mv (rows_at as_ J) v = coords as_ (mv J v).
Proof.
  intros <- F. unfold mv, rows_at, coords. rewrite map_map. apply map_ext_in. intros a Ha. rewrite Forall_forall in F. specialize (F a Ha). symmetry. exact (mv_nth J v a F).
Qed.
Lemma to_velocity_rows k as_ m d M J : is_mat k (m_nq m) M -> Forall (fun a => (a < k)%nat) as_ -> to_velocity m d M = Ok J -> to_velocity m d (rows_at as_ M) = Ok (rows_at as_ J).
Proof.
  intros HM F. unfold to_velocity. destruct (Nat.eqb (m_nq m) (m_nv m)); [intros H; injection H as <-; reflexivity|]. destruct (jac_dq2v m (d_qpos d)) as [E|]; [|discriminate]. cbn [bind].
  destruct HM as [H1 H2]. rewrite (proj2 (is_matb_spec (List.length M) (m_nq m) M)) by now split.
  rewrite (proj2 (is_matb_spec _ _ _)) by (rewrite rows_length; apply (rows_mat k); [now split|exact F]). intros H. injection H as <-. f_equal. symmetry. exact (rows_map (fun r => vm (m_nv m) r E) k as_ M H1 F).
Qed.
