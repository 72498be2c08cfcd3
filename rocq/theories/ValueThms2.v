(** Frame tasks and equality constraints: the statements used in PropsValue. *)
From Verif Require Import Base Lin LinFacts Mjx Typing Component SpecComponent SpecJoint SpecHistory Rot Conf FrameJac Collide JaxComponents Witness.
From Verif Require Import SpecCollision SpecTree SpecShape SpecContact SpecSelf SpecConf SpecValue.
From Verif Require Import MotionFacts2 ConfFacts ConfFacts2 ConfCases FrameFacts RotFacts ValueFacts ValueFacts2 ValueFacts3 ValueFacts4 ValueCases ValueThms.
Open Scope R_scope.

(** *** C33 *)
Lemma frame_error_facts L on ty j d q p : 0 < l_eps L <= 1 / 2 -> frame_task None on ty j -> has_pose ty -> target_frame_is j q p -> wf_data (j_model j) d ->
  exists i, has_object (j_model j) ty on (Z.of_nat i) /\ forall M x, pose_is d ty i M x ->
  exists v, call L j d = Ok v /\ List.length v = 6%nat /\ (v = vzero 6 <-> M = q_mat q /\ x = p) /\
    forall mk j', frame_task mk on ty j' -> j_model j' = j_model j -> target_frame_is j' q p -> mask_within 6 mk ->
      call L j' d = Ok (coords (axes 6 mk) v).
Proof.
  intros He Hj Hp Ht Hd. destruct (frame_task_value L _ _ _ _ _ _ _ Hj Hp Ht Hd I) as (i & Hi & _ & _ & V). exists i. split; [exact Hi|]. intros M x HP.
  exists (frame_error (l_eps L) M x q p). split; [|split; [reflexivity|split]].
  - exact (V M x HP).
  - apply frame_error_zero; [exact He|apply HP|apply Ht].
  - intros mk j' Hj' Em Ht' Hmk. rewrite <- Em in Hd. destruct (frame_task_value L _ _ _ _ _ _ _ Hj' Hp Ht' Hd Hmk) as (i' & Hi' & _ & _ & V').
    pose proof (frame_task_facts _ _ _ _ Hj) as (S & _). rewrite Em in Hi'. pose proof (unique_object _ _ _ _ _ S Hi Hi'). subst i'. now apply V'.
Qed.
Lemma frame_error_rigid L mk on ty j j' d d' q p q' p' G g : frame_task mk on ty j -> frame_task mk on ty j' -> j_model j' = j_model j -> has_pose ty -> mask_within 6 mk ->
  target_frame_is j q p -> target_frame_is j' q' p' -> wf_data (j_model j) d -> wf_data (j_model j) d' -> is_rotation G -> q_mat q' = move_rot G (q_mat q) -> p' = move_pos G g p ->
  exists i, has_object (j_model j) ty on (Z.of_nat i) /\ forall M x, pose_is d ty i M x -> pose_is d' ty i (move_rot G M) (move_pos G g x) -> ~ half_turn M (q_mat q) ->
  call L j' d' = call L j d.
Proof.
  intros Hj Hj' Em Hp Hmk Ht Ht' Hd Hd' HG Eq Ep. destruct (frame_task_value L _ _ _ _ _ _ _ Hj Hp Ht Hd Hmk) as (i & Hi & _ & _ & V). exists i. split; [exact Hi|].
  rewrite <- Em in Hd'. destruct (frame_task_value L _ _ _ _ _ _ _ Hj' Hp Ht' Hd' Hmk) as (i' & Hi' & _ & _ & V').
  pose proof (frame_task_facts _ _ _ _ Hj) as (S & _). rewrite Em in Hi'. pose proof (unique_object _ _ _ _ _ S Hi Hi'). subst i'.
  intros M x HP HP' Hh. rewrite (V _ _ HP), (V' _ _ HP'). do 2 f_equal. destruct HP as (HM & _). apply frame_error_moved; auto; [apply Ht|apply Ht'].
Qed.
Lemma from_matrix_id : from_matrix m3_id = q_one.
Proof.
  unfold from_matrix, m3_id, q_one. cbn [m00 m01 m02 m10 m11 m12 m20 m21 m22]. destruct (Rlt_dec 1 0); [lra|]. destruct (Rlt_dec 1 (- (1))); [lra|].
  replace (1 + 1 + 1 + 1) with (2 * 2) by ring. rewrite sqrt_square by lra. f_equal; lra.
Qed.
Lemma rotation_id : is_rotation m3_id.
Proof. unfold is_rotation, m3_mul, m3_tr, m3_id, m3_det. cbn. repeat split; try (f_equal; ring); ring. Qed.
Lemma posed_pose M x : is_rotation M -> pose_is (posed arm2 (v3_list x) (m3_list M)) OBody 2 M x.
Proof. intros H. split; [exact H|]. split; reflexivity. Qed.
Definition flip (s : R) : quat := mkQ 0 s 0 0.
Lemma flip_error eps s : 0 < eps <= 1 / 2 -> s * s = 1 -> nth 3 (frame_error eps m3_id v3_zero (flip s) v3_zero) 0 = - (PI * s).
Proof.
  intros He Hs. unfold frame_error. rewrite from_matrix_id. unfold se3_log, se3_mul, se3_inv. cbn [s_rot s_pos].
  replace (q_mul (q_conj q_one) (flip s)) with (flip s) by (unfold q_mul, q_conj, q_one, flip; cbn; f_equal; ring).
  unfold so3_log, so3_factor, flip, q_im, v3_norm2, v3_dot, v3_scale. cbn [qw qx qy qz vx vy vz v3_list app nth].
  replace (s * s + 0 * 0 + 0 * 0) with 1 by lra. destruct (Rlt_dec 1 eps); [lra|]. rewrite Rabs_R0. destruct (Rlt_dec 0 eps); [|lra]. destruct (Rlt_dec 0 0); [lra|]. rewrite sqrt_1. lra.
Qed.
Lemma half_turn_refuted L : 0 < l_eps L <= 1 / 2 -> exists j j' d q q', frame_task None "tip" OBody j /\ frame_task None "tip" OBody j' /\ j_model j' = j_model j /\
  target_frame_is j q v3_zero /\ target_frame_is j' q' v3_zero /\ q_mat q' = q_mat q /\ has_object (j_model j) OBody "tip" 2 /\ wf_data (j_model j) d /\ pose_is d OBody 2 m3_id v3_zero /\
  half_turn m3_id (q_mat q) /\ call L j' d <> call L j d.
Proof.
  intros He. exists (frame_on None (flip 1) v3_zero), (frame_on None (flip (-1)) v3_zero), (posed arm2 (v3_list v3_zero) (m3_list m3_id)), (flip 1), (flip (-1)).
  destruct (frame_on_ok None (flip 1) v3_zero (or_introl eq_refl)) as (A1 & A2 & A3); [unfold flip, q_norm2; cbn; ring|].
  destruct (frame_on_ok None (flip (-1)) v3_zero (or_introl eq_refl)) as (B1 & B2 & B3); [unfold flip, q_norm2; cbn; ring|].
  split; [exact A1|]. split; [exact B1|]. split; [congruence|]. split; [exact A2|]. split; [exact B2|]. split; [unfold flip, q_mat; cbn; f_equal; ring|].
  rewrite A3. split; [right; now left|]. assert (D : wf_data arm2 (posed arm2 (v3_list v3_zero) (m3_list m3_id))) by now apply posed_data. split; [exact D|].
  split; [exact (posed_pose _ _ rotation_id)|]. split; [unfold half_turn, trace, m3_mul, m3_tr, m3_id, q_mat, flip; cbn; ring|].
  destruct (frame_task_value L _ _ _ _ _ _ _ A1 I A2 ltac:(rewrite A3; exact D) I) as (i & Hi & _ & _ & V).
  destruct (frame_task_value L _ _ _ _ _ _ _ B1 I B2 ltac:(rewrite B3; exact D) I) as (i' & Hi' & _ & _ & V'). rewrite A3 in Hi. rewrite B3 in Hi'.
  assert (H2 : has_object arm2 OBody "tip" (Z.of_nat 2)) by (right; now left).
  pose proof (unique_object _ _ _ _ _ (chain_sound _) Hi H2). pose proof (unique_object _ _ _ _ _ (chain_sound _) Hi' H2). subst i i'.
  rewrite (V _ _ (posed_pose _ _ rotation_id)), (V' _ _ (posed_pose _ _ rotation_id)). intros E. apply Ok_inj in E. change (axes 6 (option_map mvec None)) with (seq 0 6) in E.
  apply (f_equal (fun l => nth 3 l 0)) in E. unfold coords in E. cbn [seq map nth] in E. rewrite !flip_error in E by (auto; lra). pose proof PI_RGT_0. lra.
Qed.

(** *** C25 for frame tasks *)
Lemma short_mask_frame on ty j mk q p : frame_task mk on ty j -> mask_within 6 mk -> has_pose ty -> target_frame_is j q p ->
  exists i, has_object (j_model j) ty on (Z.of_nat i) /\ forall L j0 d d' v v' M x M' x', frame_task None on ty j0 -> j_model j0 = j_model j -> target_frame_is j0 q p ->
    wf_data (j_model j) d -> wf_data (j_model j) d' -> pose_is d ty i M x -> pose_is d' ty i M' x' -> call L j0 d = Ok v -> call L j0 d' = Ok v' ->
    same_selected 6 mk v v' -> call L j d = call L j d'.
Proof.
  intros Hj Hmk Hp Ht. destruct (frame_task_facts _ _ _ _ Hj) as (S & _ & _ & _ & W & lm & t & i0 & E & Hi). destruct (named_object _ _ _ _ S Hp Hi) as (k & -> & Hk). exists k. split; [exact Hi|].
  intros L j0 d d' v v' M x M' x' Hj0 Em Ht0 Hd Hd' HP HP' C C' Hs.
  assert (K : forall d M x v, wf_data (j_model j) d -> pose_is d ty k M x -> call L j0 d = Ok v -> call L j d = Ok (coords (axes 6 mk) v)).
  { clear - Hj Hmk Hp Ht Hi S Hj0 Em Ht0. intros d M x v Hd HP C. destruct (frame_task_value L _ _ _ _ _ _ _ Hj Hp Ht Hd Hmk) as (i1 & Hi1 & _ & _ & V1).
    assert (Hd0 : wf_data (j_model j0) d) by now rewrite Em. destruct (frame_task_value L _ _ _ _ _ _ _ Hj0 Hp Ht0 Hd0 I) as (i2 & Hi2 & _ & _ & V2). rewrite Em in Hi2.
    pose proof (unique_object _ _ _ _ _ S Hi1 Hi). pose proof (unique_object _ _ _ _ _ S Hi2 Hi). subst i1 i2. rewrite (V1 _ _ HP). rewrite (V2 _ _ HP) in C. apply Ok_inj in C. subst v. reflexivity. }
  rewrite (K _ _ _ _ Hd HP C), (K _ _ _ _ Hd' HP' C'). f_equal. now apply coords_same.
Qed.
Definition long8 : list Z := [0; 0; 0; 0; 0; 0; 0; 1]%Z.
Definition quarter_z : m3 := mkM3 0 (-1) 0 1 0 0 0 0 1.
Lemma quarter_rotation : is_rotation quarter_z.
Proof. unfold is_rotation, m3_mul, m3_tr, m3_id, m3_det, quarter_z. cbn. repeat split; try (f_equal; ring); ring. Qed.
Lemma long_frame_value L M : is_rotation M -> call L (frame_on (Some long8) q_one v3_zero) (posed arm2 (v3_list v3_zero) (m3_list M)) = Ok [nth 5 (frame_error (l_eps L) M v3_zero q_one v3_zero) 0].
Proof.
  intros HM. assert (D : wf_data arm2 (posed arm2 (v3_list v3_zero) (m3_list M))) by now apply posed_data.
  change (call_frame L [7]%Z 2 OBody (tvec [1; 0; 0; 0; 0; 0; 0]) (posed arm2 (v3_list v3_zero) (m3_list M)) = Ok [nth 5 (frame_error (l_eps L) M v3_zero q_one v3_zero) 0]).
  unfold call_frame. pose proof (pose_frame arm2 _ OBody 2 M v3_zero D I ltac:(cbn; lia) (posed_pose _ _ HM)) as Ef. change (Z.of_nat 2) with 2%Z in Ef. rewrite Ef. reflexivity.
Qed.
Lemma long_mask_frame L : 0 < l_eps L <= 1 / 2 -> exists mk j j0 d d' v v', frame_task mk "tip" OBody j /\ frame_task None "tip" OBody j0 /\ wf_mask mk /\ j_model j0 = j_model j /\
  target_frame_is j q_one v3_zero /\ target_frame_is j0 q_one v3_zero /\ wf_data (j_model j) d /\ wf_data (j_model j) d' /\ call L j0 d = Ok v /\ call L j0 d' = Ok v' /\
  same_selected 6 mk v v' /\ call L j d <> call L j d'.
Proof.
  intros He. assert (N1 : q_norm2 q_one = 1) by (unfold q_norm2, q_one; cbn; ring).
  destruct (frame_on_ok (Some long8) q_one v3_zero (or_intror eq_refl) N1) as (A1 & A2 & A3).
  destruct (frame_on_ok None q_one v3_zero (or_introl eq_refl) N1) as (B1 & B2 & B3).
  assert (D : forall M, wf_data arm2 (posed arm2 (v3_list v3_zero) (m3_list M))) by (intros M; now apply posed_data).
  assert (V : forall M, is_rotation M -> exists v, call L (frame_on None q_one v3_zero) (posed arm2 (v3_list v3_zero) (m3_list M)) = Ok v).
  { intros M HM. destruct (frame_task_value L _ _ _ _ _ _ _ B1 I B2 ltac:(rewrite B3; apply (D M)) I) as (i & Hi & _ & _ & V). rewrite B3 in Hi.
    assert (H2 : has_object arm2 OBody "tip" (Z.of_nat 2)) by (right; now left). pose proof (unique_object _ _ _ _ _ (chain_sound _) Hi H2). subst i. eexists. exact (V _ _ (posed_pose _ _ HM)). }
  destruct (V _ rotation_id) as [v Ev]. destruct (V _ quarter_rotation) as [v' Ev'].
  exists (Some (mvec long8)), (frame_on (Some long8) q_one v3_zero), (frame_on None q_one v3_zero), (posed arm2 (v3_list v3_zero) (m3_list m3_id)), (posed arm2 (v3_list v3_zero) (m3_list quarter_z)), v, v'.
  split; [exact A1|]. split; [exact B1|]. split; [reflexivity|]. split; [congruence|]. split; [exact A2|]. split; [exact B2|]. rewrite A3. split; [apply D|]. split; [apply D|]. split; [exact Ev|]. split; [exact Ev'|]. split.
  - intros a Ha Hl. vm_compute in Ha. destruct Ha as [<-|[]]. lia.
  - rewrite (long_frame_value L _ rotation_id), (long_frame_value L _ quarter_rotation). intros E. apply Ok_inj in E. apply (f_equal (fun l => nth 0 l 0)) in E. change (nth 5 (frame_error (l_eps L) m3_id v3_zero q_one v3_zero) 0 = nth 5 (frame_error (l_eps L) quarter_z v3_zero q_one v3_zero) 0) in E.
    assert (Z0 : frame_error (l_eps L) m3_id v3_zero q_one v3_zero = vzero 6).
    { apply frame_error_zero; [exact He|apply rotation_id|exact N1|]. split; [|reflexivity]. unfold q_mat, q_one, m3_id. cbn. f_equal; ring. }
    rewrite Z0 in E. unfold frame_error, se3_log, se3_mul, se3_inv in E. cbn [s_rot s_pos] in E. unfold so3_log in E. set (r := q_mul (q_conj (from_matrix quarter_z)) q_one) in E.
    destruct (from_matrix_spec _ quarter_rotation) as [Nq Mq].
    assert (Nr : q_norm2 r = 1) by (unfold r; rewrite q_norm2_mul, q_norm2_conj, Nq, N1; ring).
    assert (Mr : q_mat r = m3_tr quarter_z) by (unfold r; rewrite q_mul_one_r, q_mat_conj, Mq; reflexivity).
    assert (Ez : qz r <> 0).
    { intros Z. unfold q_mat, quarter_z, m3_tr in Mr. destruct r as [w a b c]. cbn in Z, Mr, Nr. subst c. injection Mr as M1 M2 M3 M4 M5 M6 M7 M8 M9. unfold q_norm2 in Nr. cbn in Nr. nra. }
    assert (Ef : so3_factor (l_eps L) r <> 0).
    { apply so3_factor_nonzero; [exact He|exact Nr|]. intros Z. apply Ez. unfold q_im, v3_zero in Z. now injection Z. }
    cbn [v3_list app nth v3_scale vz q_im vzero repeat] in E. unfold vzero in E. cbn in E. symmetry in E. apply Rmult_integral in E. destruct E; contradiction.
Qed.
