(** Exact form of C25: what a mask of any length makes a position component read. *)
From Verif Require Import Base Lin LinFacts Mjx Typing Component SpecComponent SpecJoint SpecHistory Rot Conf FrameJac JaxComponents Witness.
From Verif Require Import SpecCollision SpecTree SpecShape SpecContact SpecSelf SpecValue ConfCases CompThms2 BindFacts2 MotionFacts2 FrameFacts ValueFacts ValueFacts2 ValueFacts3 ValueFacts4 ValueThms SpecExact.
Open Scope R_scope.

Lemma gather_clamped (x : vec) n as_ : List.length x = S n -> jx_gather x (map Z.of_nat as_) = Ok (coords (map (Nat.min n) as_) x).
Proof.
  intros Lx. unfold jx_gather. induction as_ as [|a as_ IH]; [reflexivity|]. cbn [map mapM]. 
  replace (jx_idx x (Z.of_nat a)) with (@Ok R (nth (Nat.min n a) x 0)).
  - cbn [bind]. now rewrite IH.
  - unfold jx_idx. rewrite Lx. destruct (Z.ltb_spec (Z.of_nat a) 0); [lia|]. replace (Z.to_nat _) with (Nat.min n a) by lia. rewrite (nth_error_nth' x 0) by lia. reflexivity.
Qed.
Lemma clamped_same n mk x y : ~ overreaches (S n) mk -> same_selected (S n) mk x y -> coords (map (Nat.min n) (axes (S n) mk)) x = coords (map (Nat.min n) (axes (S n) mk)) y.
Proof.
  intros Ho Hs. unfold coords. rewrite !map_map. apply map_ext_in. intros a Ha. destruct (Nat.le_gt_cases a n) as [H|H].
  - rewrite Nat.min_r by lia. apply Hs; [exact Ha|lia].
  - rewrite Nat.min_l by lia. apply Hs; [|lia]. destruct (in_dec Nat.eq_dec n (axes (S n) mk)) as [I|I]; [exact I|]. exfalso. apply Ho. split; [exists a; split; [exact Ha|lia]|]. now replace (S n - 1)%nat with n by lia.
Qed.
(** Everything at the position [p]. *)
Definition gathered (m : mjmodel) (p : vec) : mjdata :=
  let d := straight m (repeat 0 (m_nq m)) in
  {| d_qpos := d_qpos d; d_xpos := repeat p (m_nbody m); d_xmat := d_xmat d; d_xquat := d_xquat d; d_xipos := d_xipos d;
     d_geom_xpos := repeat p (count m OGeom); d_geom_xmat := d_geom_xmat d; d_site_xpos := repeat p (count m OSite); d_site_xmat := d_site_xmat d;
     d_subtree_com := d_subtree_com d; d_cdof := d_cdof d; d_efc_pos := d_efc_pos d; d_efc_is_equality := d_efc_is_equality d; d_efc_J := d_efc_J d |}.
Lemma rows_of p n k : List.length p = k -> is_mat n k (repeat p n).
Proof. intros H. split; [apply repeat_length|]. apply Forall_forall. intros x Hx. apply repeat_spec in Hx. now subst. Qed.
Lemma gathered_data m p : List.length p = 3%nat -> wf_data m (gathered m p).
Proof.
  intros Lp. destruct (straight_data m (repeat 0 (m_nq m)) (repeat_length _ _)) as (D0 & _ & D2 & D3 & D4 & _ & D6 & _ & D8 & D9 & D10 & D11 & D12).
  unfold wf_data, gathered. cbn [d_qpos d_xpos d_xmat d_xquat d_xipos d_geom_xpos d_geom_xmat d_site_xpos d_site_xmat d_subtree_com d_cdof d_efc_pos d_efc_is_equality d_efc_J].
  split; [exact D0|]. split; [now apply rows_of|]. split; [exact D2|]. split; [exact D3|]. split; [exact D4|]. split; [now apply rows_of|]. split; [exact D6|]. split; [now apply rows_of|].
  split; [exact D8|]. split; [exact D9|]. split; [exact D10|]. split; [exact D11|exact D12].
Qed.
Lemma nth_rep {A} (x d : A) n i : (i < n)%nat -> nth i (repeat x n) d = x.
Proof. revert i. induction n as [|n IH]; intros [|i] H; cbn; try lia; [reflexivity|]. apply IH. lia. Qed.
Lemma gathered_pos m p ty i : has_pose ty -> (i < count m ty)%nat -> position (gathered m p) ty i = p.
Proof. intros Hp Hi. destruct ty; try contradiction; cbn [position gathered d_xpos d_geom_xpos d_site_xpos]; now apply nth_rep. Qed.
Lemma differ mk : overreaches 3 mk -> same_selected 3 mk [0; 0; 0] [0; 0; 1] /\ coords (map (Nat.min 2) (axes 3 mk)) [0; 0; 0] <> coords (map (Nat.min 2) (axes 3 mk)) [0; 0; 1].
Proof.
  intros [(a & Ha & La) No]. split.
  - intros b Hb Lb. destruct b as [|[|[|b]]]; try lia; try reflexivity. now elim No.
  - intros E. unfold coords in E. rewrite !map_map in E. apply ext_in_map with (a := a) in E; [|exact Ha]. rewrite Nat.min_l in E by lia. cbn in E. lra.
Qed.
Lemma vsub_inj_l x y t : List.length x = List.length t -> List.length y = List.length t -> vsub x t = vsub y t -> x = y.
Proof.
  revert y t. induction x as [|a x IH]; intros [|b y] [|c t] H1 H2 E; try discriminate; [reflexivity|]. cbn in *. injection E as E1 E2. f_equal; [lra|]. apply (IH y t); [lia|lia|exact E2].
Qed.
Lemma vsub_inj_r x y t : List.length x = List.length t -> List.length y = List.length t -> vsub t x = vsub t y -> x = y.
Proof.
  revert y t. induction x as [|a x IH]; intros [|b y] [|c t] H1 H2 E; try discriminate; [reflexivity|]. cbn in *. injection E as E1 E2. f_equal; [lra|]. apply (IH y t); [lia|lia|exact E2].
Qed.

Lemma app_inv_len {A} (a b c d : list A) : List.length a = List.length c -> a ++ b = c ++ d -> a = c /\ b = d.
Proof.
  revert c. induction a as [|x a IH]; intros [|y c] H E; try discriminate; [now split|]. cbn in *. injection E as -> E. destruct (IH c) as [-> ->]; [lia|exact E|now split].
Qed.
(** What is read. *)
Definition read_by (mk : option marr) (x : vec) : vec := coords (map (Nat.min 2) (axes 3 mk)) x.
Lemma read_length mk x : List.length (read_by mk x) = List.length (axes 3 mk).
Proof. unfold read_by. now rewrite coords_length, map_length. Qed.
Lemma task_reading mk on ty j t : position_task mk on ty j -> has_pose ty -> target_is j t ->
  exists i, has_object (j_model j) ty on (Z.of_nat i) /\ (i < count (j_model j) ty)%nat /\ List.length t = List.length (axes 3 mk) /\
  forall L d, wf_data (j_model j) d -> call L j d = Ok (vsub (read_by mk (position d ty i)) t).
Proof.
  intros H Hp Ht. destruct (position_task_facts _ _ _ _ H) as (S & _ & M & _ & W & lm & t' & i & E & Hi & Lt). destruct (named_object _ _ _ _ S Hp Hi) as (k & -> & Hk).
  assert (t' = tvec t) as ->. { destruct Ht as [(W' & lm' & E')|(W' & lm' & o & ty' & E')]; rewrite E in E'; [discriminate|]. now injection E' as _ _ _ _ ->. }
  apply tvec_length in Lt. exists k. split; [exact Hi|]. split; [exact Hk|]. split; [exact Lt|]. intros L d Hd. unfold call. rewrite E. unfold call_pos. destruct (get_pos_spec _ _ _ _ Hd Hp Hk) as [-> L1]. cbn [bind].
  rewrite M, (gather_clamped _ 2 _ L1). cbn [bind vec_of ndim t_shape tvec List.length t_data]. apply bc2_eq. rewrite read_length. congruence.
Qed.
Lemma task_harmless mk on ty j t : position_task mk on ty j -> has_pose ty -> target_is j t ->
  exists i, has_object (j_model j) ty on (Z.of_nat i) /\
  (forall L d, wf_data (j_model j) d -> call L j d = Ok (vsub (coords (map (Nat.min 2) (axes 3 mk)) (position d ty i)) t)) /\
  ((forall L d d', wf_data (j_model j) d -> wf_data (j_model j) d' -> same_selected 3 mk (position d ty i) (position d' ty i) -> call L j d = call L j d') <-> ~ overreaches 3 mk).
Proof.
  intros H Hp Ht. destruct (task_reading mk on ty j t H Hp Ht) as (i & Hi & Hk & Lt & C). exists i. split; [exact Hi|]. split; [exact C|]. split.
  - intros Hh Ho. destruct (differ mk Ho) as [S N]. apply N.
    assert (L : lib) by exact straight_lib. 
    pose proof (gathered_data (j_model j) [0; 0; 0] eq_refl) as D1. pose proof (gathered_data (j_model j) [0; 0; 1] eq_refl) as D2.
    specialize (Hh L _ _ D1 D2). rewrite (C L _ D1), (C L _ D2), !gathered_pos in Hh by assumption. specialize (Hh S). injection Hh as Hh. apply vsub_inj_l in Hh; [exact Hh| |]; rewrite read_length; congruence.
  - intros Ho L d d' Hd Hd' Hs. rewrite (C L d Hd), (C L d' Hd'). unfold read_by. now rewrite (clamped_same 2 mk _ _ Ho Hs).
Qed.
Lemma barrier_reading mk on ty lts j lo hi : position_barrier mk on ty lts j -> has_pose ty -> p_limits_are lts j lo hi ->
  exists i, has_object (j_model j) ty on (Z.of_nat i) /\ (i < count (j_model j) ty)%nat /\
  exists lt a b, lts = lt_name lt /\ List.length a = List.length (axes 3 mk) /\ List.length b = List.length (axes 3 mk) /\
  forall L d, wf_data (j_model j) d -> let x := read_by mk (position d ty i) in call L j d = Ok (match lt with LMin => vsub x a | LMax => vsub b x | LBoth => vsub x a ++ vsub b x end).
Proof.
  intros Hj Hp Hl. destruct (position_barrier_facts _ _ _ _ _ Hj) as (S & M & G & D & lt & sdg & lo' & hi' & i & Nm & Sz & E & Hi & Llo & Lhi & Zx & Zn).
  destruct (named_object _ _ _ _ S Hp Hi) as (k & -> & Hk). exists k. split; [exact Hi|]. split; [exact Hk|].
  destruct Hl as (sdg2 & o2 & ty2 & l2 & h2 & li2 & E2 & Hlo & Hhi). rewrite E in E2. injection E2 as <- <- <- <- <- <-. set (n := List.length (axes 3 mk)) in *.
  assert (K : forall a b, List.length a = n -> List.length b = n -> lo' = tvec a -> hi' = tvec b -> exists lt0 a b, lts = lt_name lt0 /\ List.length a = n /\ List.length b = n /\
    forall L d, wf_data (j_model j) d -> let x := read_by mk (position d ty k) in call L j d = Ok (match lt0 with LMin => vsub x a | LMax => vsub b x | LBoth => vsub x a ++ vsub b x end)).
  { intros a b La Lb -> ->. exists lt, a, b. split; [exact Nm|]. split; [exact La|]. split; [exact Lb|]. intros L d Hd. cbv zeta. destruct (get_pos_spec _ _ _ _ Hd Hp Hk) as [Ep Lp].
    assert (Lx : List.length (read_by mk (position d ty k)) = n) by apply read_length.
    unfold call. rewrite E. unfold call_pbar. rewrite Ep. cbn [bind]. rewrite M, (gather_clamped _ 2 _ Lp). fold (read_by mk (position d ty k)). set (x := read_by mk (position d ty k)) in *.
    cbn [bind vec_of ndim t_shape tvec List.length t_data]. rewrite !bc2_eq by congruence. cbn [bind]. apply (pick_sides (vsub x a) (vsub b x) n); [rewrite vsub_length|rewrite vsub_length]; congruence. }
  subst lts. destruct lt; cbn [lt_name] in *.
  - specialize (Hlo ltac:(discriminate)). specialize (Zx eq_refl). subst lo'. apply tvec_length in Llo. apply (K lo (vzero n)); auto. apply vzero_length.
  - specialize (Hhi ltac:(discriminate)). specialize (Zn eq_refl). subst hi'. apply tvec_length in Lhi. apply (K (vzero n) hi); auto. apply vzero_length.
  - specialize (Hlo ltac:(discriminate)). specialize (Hhi ltac:(discriminate)). subst lo' hi'. apply tvec_length in Llo. apply tvec_length in Lhi. apply (K lo hi); auto.
Qed.
Lemma barrier_harmless mk on ty lts j lo hi : position_barrier mk on ty lts j -> has_pose ty -> p_limits_are lts j lo hi ->
  exists i, has_object (j_model j) ty on (Z.of_nat i) /\
  ((forall L d d', wf_data (j_model j) d -> wf_data (j_model j) d' -> same_selected 3 mk (position d ty i) (position d' ty i) -> call L j d = call L j d') <-> ~ overreaches 3 mk).
Proof.
  intros H Hp Hl. destruct (barrier_reading mk on ty lts j lo hi H Hp Hl) as (i & Hi & Hk & lt & a & b & _ & La & Lb & C). exists i. split; [exact Hi|]. cbv zeta in C. split.
  - intros Hh Ho. destruct (differ mk Ho) as [S N]. apply N.
    assert (L : lib) by exact straight_lib.
    pose proof (gathered_data (j_model j) [0; 0; 0] eq_refl) as D1. pose proof (gathered_data (j_model j) [0; 0; 1] eq_refl) as D2.
    specialize (Hh L _ _ D1 D2). rewrite (C L _ D1), (C L _ D2), !gathered_pos in Hh by assumption. specialize (Hh S). fold (read_by mk [0; 0; 0]) (read_by mk [0; 0; 1]).
    assert (R1 : List.length (read_by mk [0; 0; 0]) = List.length a) by (rewrite read_length; congruence). assert (R2 : List.length (read_by mk [0; 0; 1]) = List.length a) by (rewrite read_length; congruence).
    destruct lt; injection Hh as Hh.
    + now apply vsub_inj_l in Hh.
    + apply vsub_inj_r in Hh; congruence.
    + apply app_inv_len in Hh; [|rewrite !vsub_length; congruence]. destruct Hh as [Hh _]. now apply vsub_inj_l in Hh.
  - intros Ho L d d' Hd Hd' Hs. rewrite (C L d Hd), (C L d' Hd'). unfold read_by. now rewrite (clamped_same 2 mk _ _ Ho Hs).
Qed.
Lemma frame_reading mk on ty j j0 q p : frame_task mk on ty j -> frame_task None on ty j0 -> j_model j0 = j_model j -> target_frame_is j q p -> target_frame_is j0 q p ->
  forall L d v, call L j0 d = Ok v -> call L j d = Ok (coords (map (Nat.min 5) (axes 6 mk)) v) /\
  (~ overreaches 6 mk -> forall d' v', call L j0 d' = Ok v' -> same_selected 6 mk v v' -> call L j d = call L j d').
Proof.
  intros Hj Hj0 Em Ht Ht0.
  destruct (frame_task_facts _ _ _ _ Hj) as (S & _ & M & _ & W & lm & t & i & E & Hi). destruct (frame_task_facts _ _ _ _ Hj0) as (_ & _ & M0 & _ & W0 & lm0 & t0 & i0 & E0 & Hi0).
  rewrite Em in Hi0. assert (i0 = i) by (destruct S as (_ & _ & _ & (_ & U) & _); exact (U _ _ _ _ Hi0 Hi)). subst i0.
  assert (t0 = t). { destruct Ht as (_ & ? & ? & ? & ? & F). destruct Ht0 as (_ & ? & ? & ? & ? & F0). rewrite E in F. rewrite E0 in F0. injection F as _ _ _ _ ->. injection F0 as _ _ _ _ ->. reflexivity. } subst t0.
  assert (K : forall L d v, call L j0 d = Ok v -> call L j d = Ok (coords (map (Nat.min 5) (axes 6 mk)) v)).
  { intros L d v C. unfold call in *. rewrite E0 in C. rewrite E. unfold call_frame in *. rewrite M0 in C. rewrite M. destruct (get_frame d i ty) as [f|]; [|discriminate]. cbn [bind] in *.
    destruct (vec_of t) as [tl|]; [|discriminate]. cbn [bind] in *. destruct (se3_of tl) as [T|]; [|discriminate]. cbn [bind] in *. set (u := se3_log (l_eps L) (se3_mul (se3_inv f) T)) in *.
    assert (Lu : List.length u = 6%nat) by reflexivity. rewrite (gather_clamped u 5) in C by exact Lu. rewrite (gather_clamped u 5) by exact Lu. injection C as <-. f_equal. }
  intros L d v C. split; [now apply K|]. intros Ho d' v' C' Hs. rewrite (K L d v C), (K L d' v' C'). f_equal. now apply (clamped_same 5 mk).
Qed.
