(** Equality constraints and frame tasks: what they hold and their values; what object components read. *)
From Verif Require Import Base Lin LinFacts Mjx Typing Component SpecComponent SpecJoint SpecHistory SpecCollision SpecTree SpecShape SpecContact SpecSelf SpecMotion Rot Conf FrameJac Collide JaxComponents SpecValue.
From Verif Require Import ComponentFacts ComponentFacts2 ApiSteps JointFacts BindFacts BindFacts2 BindFacts3 CompThms BindThms BindThms2 CollideFacts3.
From Verif Require Import QPFacts MotionFacts MotionFacts2 FrameFacts ValueFacts ValueFacts2.
Open Scope R_scope.

(** ** Equality constraint *)

Definition eqc_inv (h : bool) (s : option tensor) (a : attrs) : Prop :=
  a_ext a = XConstraint true h s CModelEq /\ late_inv a /\
  forall m, a_model a = Some m -> sound_model m /\ Forall eq_supported (m_eq_type m) /\ a_dim a = Z.of_nat (eq_total m).
Lemma astep_dim a a' : astep a a' -> a_dim a' = a_dim a.
Proof. intros H. destruct H; try reflexivity. now destruct (forced_other _ _ H) as (_ & _ & _ & _ & -> & _). Qed.
Lemma eqc_inv_step h s a a' : eqc_inv h s a -> astep a a' -> eqc_inv h s a'.
Proof.
  intros (E & Li & M) S. split; [|split; [eapply late_inv_step; eauto|]].
  - destruct S; try (rewrite E in *; discriminate); cbn; auto. destruct (forced_other _ _ H) as (_ & _ & _ & _ & _ & ->). exact E.
  - destruct (astep_object _ _ S) as [_ ->]. rewrite (astep_dim _ _ S). exact M.
Qed.
Lemma eqc_inv_bind h s c m : sound_model m -> fst (update_model m c) = Ok tt -> eqc_inv h s (c_at c) -> eqc_inv h s (c_at (snd (update_model m c))).
Proof.
  intros Hm Hu (E & Li & M). pose proof Hm as (_ & _ & _ & _ & _ & Hl & _). destruct (equality_bind m c _ _ _ E Hl) as [A B].
  assert (HF : Forall eq_supported (m_eq_type m)).
  { destruct (Forall_dec eq_supported (fun t => match t return {eq_supported t} + {~ eq_supported t} with EqOther _ => right (fun x => x) | _ => left I end) (m_eq_type m)) as [Y|N]; [exact Y|].
    rewrite (B N) in Hu. discriminate. }
  split; [|split; [now apply late_inv_bind|]]; rewrite (A HF); cbn; [exact E|]. intros m' Hm'. injection Hm' as <-. split; [exact Hm|]. split; [exact HF|reflexivity].
Qed.
Definition ec_facts (j : jaxc) : Prop :=
  let n := eq_total (j_model j) in
  sound_model (j_model j) /\ Forall eq_supported (m_eq_type (j_model j)) /\ j_dim j = Z.of_nat n /\ j_mask_idxs j = map Z.of_nat (seq 0 n) /\
  List.length (j_gain j) = n /\ exists hard W, j_ext j = JConstraint true hard W JCModelEq.
Lemma equality_facts j : equality_constraint j -> ec_facts j.
Proof.
  intros (name & gain & hard & soft & c & Hn & os & Ho & Hb & Hj).
  apply published_reachable in Hj; [|eapply made_model_equality; exact Hn]. pose proof Hj as (P1 & P2 & P3 & P4 & P5 & P6 & P7).
  assert (I : eqc_inv hard soft (c_at (history os c))).
  { eapply (ok_history_with sound_model); eauto; [|intros; eapply eqc_inv_step; eauto|intros; eapply eqc_inv_bind; eauto].
    split; [exact (equality_history _ _ _ _ _ [] Hn ltac:(constructor))|]. split; [eapply late_new_eq; exact Hn|].
    unfold new_model_equality in Hn. destruct (init_component _ _ _ _ _) as [a|] eqn:E; [|discriminate]. injection Hn as <-. apply init_comp_mask in E. cbn. destruct E as (_ & _ & E & _). intros; congruence. }
  destruct I as (E & Li & M). destruct (M _ P3) as (S & F & D). rewrite (late_mask _ _ Li D) in P6. apply Ok_inj in P6.
  split; [exact S|]. split; [exact F|]. split; [congruence|]. split; [congruence|]. split; [eapply vector_gain_length; eauto|].
  inversion P7; try congruence. eauto.
  match goal with X : a_ext _ = XConstraint ?x ?y ?z CModelEq |- _ => rewrite E in X; injection X as <- <- <- end. eauto.
Qed.
Lemma flagged_length {A B} (a : list A) (b : list B) fl : List.length a = List.length b -> List.length (flagged a fl) = List.length (flagged b fl).
Proof.
  unfold flagged. rewrite !map_length. revert b fl. induction a as [|x a IH]; intros [|y b] fl H; try discriminate; [reflexivity|]. destruct fl as [|[] fl]; cbn; [reflexivity| |]; injection H as H; rewrite (IH b fl H); reflexivity.
Qed.
Lemma bool_rows_ok {A} (a : list A) fl : List.length a = List.length fl -> bool_rows a fl = Ok (flagged a fl).
Proof. intros H. unfold bool_rows. rewrite H, Nat.eqb_refl. reflexivity. Qed.
Lemma gather_all {A} (l : list A) : jx_gather l (map Z.of_nat (seq 0 (List.length l))) = Ok l.
Proof.
  destruct l as [|x l]; [reflexivity|]. rewrite (gather_in _ _ x) by (apply Forall_forall; intros i Hi; apply in_seq in Hi; lia). f_equal.
  apply (nth_ext _ _ x x); [now rewrite map_length, seq_length|]. intros k Hk. rewrite map_length, seq_length in Hk.
  set (F := fun i => nth i (x :: l) x). rewrite (nth_indep _ x (F 0%nat)) by (rewrite map_length, seq_length; exact Hk). rewrite map_nth, seq_nth by exact Hk. reflexivity.
Qed.
Lemma equality_rows L j d : equality_constraint j -> wf_data (j_model j) d ->
  let rows := flagged (d_efc_pos d) (d_efc_is_equality d) in
  Forall eq_supported (m_eq_type (j_model j)) /\ j_dim j = Z.of_nat (eq_total (j_model j)) /\
  (List.length rows = eq_total (j_model j) -> call L j d = Ok rows /\ jacobian L j d = Ok (flagged (d_efc_J d) (d_efc_is_equality d))) /\
  (m_eq_type (j_model j) = [] -> j_dim j = 0%Z /\ call L j d = Ok [] /\ jacobian L j d = Ok []).
Proof.
  intros Hj Hd. cbv zeta. destruct (equality_facts j Hj) as (S & F & D & M & G & hard & W & E).
  destruct Hd as (_ & _ & _ & _ & _ & _ & _ & _ & _ & _ & _ & L1 & L2 & _).
  assert (L3 : List.length (d_efc_J d) = List.length (d_efc_is_equality d)) by congruence.
  split; [exact F|]. split; [exact D|].
  unfold call, jacobian, jac_eq, call_eq. rewrite E. rewrite !bool_rows_ok by congruence. cbn [bind]. rewrite M. split.
  - intros <-. split; [apply gather_all|]. rewrite (flagged_length (d_efc_pos d) (d_efc_J d)) by congruence. apply gather_all.
  - intros H0. unfold eq_total in *. rewrite H0 in *. cbn. auto.
Qed.

(** ** Frame task *)
Definition ft_facts (mk : option marr) (on : string) (ty : objtype) (j : jaxc) : Prop :=
  sound_model (j_model j) /\ j_dim j = Z.of_nat (List.length (axes 6 mk)) /\ j_mask_idxs j = map Z.of_nat (axes 6 mk) /\
  List.length (j_gain j) = List.length (axes 6 mk) /\
  exists W lm t i, j_ext j = JTask W lm (JTFrame i ty t) /\ has_object (j_model j) ty on i.
Lemma frame_task_facts mk on ty j : frame_task mk on ty j -> ft_facts mk on ty j.
Proof.
  intros (name & cost & gain & gf & lm & c & Hn & os & Ho & Hb & Hj).
  apply published_reachable in Hj; [|eapply made_frame_task; exact Hn]. pose proof Hj as (P1 & P2 & P3 & P4 & P5 & P6 & P7).
  pose proof (frame_inv_new _ _ _ _ _ _ _ _ _ Hn) as I0.
  assert (I : frame_inv (mk_opt mk) (task_dim 6 mk) on ty (c_at (history os c))).
  { eapply api_history; [eapply calls_api; exact Ho|exact I0|intros; eapply frame_inv_step; eauto|intros; eapply frame_inv_bind; eauto]. }
  assert (O : id_ok (c_at (history os c))).
  { apply id_ok_history; [|exact Ho|exact Hb]. destruct I0 as (_ & _ & co & l & t & i & He). apply (id_ok_new _ (mkO on ty i)); [unfold object_of; now rewrite He|].
    unfold new_frame_task in Hn. destruct (init_task name cost gain gf lm mk _) as [a|] eqn:E; [|discriminate]. injection Hn as <-. cbn. eapply init_task_mask; exact E. }
  destruct I as (D & M & co & l & t & i & He). destruct O as (o & Eo & Go). unfold object_of in Eo. rewrite He in Eo. injection Eo as <-. destruct (Go _ P3) as [S H]. cbn in H.
  rewrite (mask_state_read _ _ _ D M) in P6. apply Ok_inj in P6. rewrite (idxs_axes_any 6 _ mk eq_refl) in P6.
  unfold ft_facts. rewrite <- task_dim_axes. split; [exact S|]. split; [congruence|]. split; [congruence|]. split; [eapply vector_gain_length; eauto|].
  inversion P7 as [| |? ? o' t' W' He' Hw| | | | | | | |]; try congruence. rewrite He in He'. injection He' as <- <- <- <-. do 4 eexists. split; [reflexivity|exact H].
Qed.

(** ** Object components read only the pose of their object *)
Lemma get_frame_same m d d' ty i : wf_data m d -> wf_data m d' -> has_pose ty -> (i < count m ty)%nat -> wf_model m ->
  position d ty i = position d' ty i -> orientation d ty i = orientation d' ty i -> get_frame d (Z.of_nat i) ty = get_frame d' (Z.of_nat i) ty.
Proof.
  intros Hd Hd' Hp Hi Hm Ep Eo. unfold get_frame, get_rotation.
  destruct (object_mat_spec m d Hd ty i Hi) as (M & E1 & F1). destruct (object_mat_spec m d' Hd' ty i Hi) as (M' & E2 & F2). rewrite E1, E2. cbn [bind].
  assert (M = M'). { rewrite F1, F2 in Eo. destruct M, M'. cbn in Eo. injection Eo as -> -> -> -> -> -> -> -> ->. reflexivity. } subst M'.
  destruct (get_pos_spec _ _ _ _ Hd Hp Hi) as [-> _]. destruct (get_pos_spec _ _ _ _ Hd' Hp Hi) as [-> _]. cbn [bind]. now rewrite Ep.
Qed.
Lemma object_reads_pose on ty j : object_component on ty j -> has_pose ty -> exists i, has_object (j_model j) ty on (Z.of_nat i) /\ (i < count (j_model j) ty)%nat /\
  forall L d d', wf_data (j_model j) d -> wf_data (j_model j) d' -> position d ty i = position d' ty i -> orientation d ty i = orientation d' ty i -> call L j d = call L j d'.
Proof.
  intros [(mk & H)|[(mk & H)|(mk & lt & H)]] Hp.
  - destruct (position_task_facts _ _ _ _ H) as (S & _ & _ & _ & W & lm & t & i & E & Hi & _). destruct (named_object _ _ _ _ S Hp Hi) as (k & -> & Hk). exists k. split; [exact Hi|]. split; [exact Hk|].
    intros L d d' Hd Hd' Ep Eo. unfold call. rewrite E. unfold call_pos. destruct (get_pos_spec _ _ _ _ Hd Hp Hk) as [-> _]. destruct (get_pos_spec _ _ _ _ Hd' Hp Hk) as [-> _]. now rewrite Ep.
  - destruct (frame_task_facts _ _ _ _ H) as (S & _ & _ & _ & W & lm & t & i & E & Hi). destruct (named_object _ _ _ _ S Hp Hi) as (k & -> & Hk). exists k. split; [exact Hi|]. split; [exact Hk|].
    intros L d d' Hd Hd' Ep Eo. unfold call. rewrite E. unfold call_frame. rewrite (get_frame_same _ d d' ty k Hd Hd' Hp Hk (proj1 S) Ep Eo). reflexivity.
  - destruct (position_barrier_facts _ _ _ _ _ H) as (S & _ & _ & _ & lt' & sdg & lo & hi & i & _ & _ & E & Hi & _). destruct (named_object _ _ _ _ S Hp Hi) as (k & -> & Hk). exists k. split; [exact Hi|]. split; [exact Hk|].
    intros L d d' Hd Hd' Ep Eo. unfold call. rewrite E. unfold call_pbar. destruct (get_pos_spec _ _ _ _ Hd Hp Hk) as [-> _]. destruct (get_pos_spec _ _ _ _ Hd' Hp Hk) as [-> _]. now rewrite Ep.
Qed.
