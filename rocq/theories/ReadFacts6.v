(** The object id, and when target_q, q_min and q_max can be read. *)
From Verif Require Import Base Lin LinFacts Mjx Typing Component SpecComponent ComponentFacts ComponentFacts2 BindFacts2 SpecHistory SpecSettings SettingFacts SettingThms Read SpecRead ReadFacts ReadFacts2 ReadFacts3 ReadFacts4 ReadFacts5.
Open Scope nat_scope.
#[local] Arguments Nat.ltb : simpl never.
#[local] Arguments Nat.eqb : simpl never.
#[local] Arguments Z.eqb : simpl never.
#[local] Arguments name2id : simpl never.
#[local] Arguments force_mask : simpl never.
#[local] Arguments last_dim_neq : simpl never.
#[local] Arguments last_dim : simpl never.
#[local] Arguments vzero : simpl never.
#[local] Arguments Z.mul : simpl never.
#[local] Arguments Z.div : simpl never.

Lemma constructed_id c n ty : constructed c -> object_class (class_of c) = Some (n, ty) -> v_id (c_at c) = Some (-1)%Z.
Proof.
  intros H. destruct H as [? ? ? ? ? ? c H|? ? ? ? ? ? ? ? c H|? ? ? ? ? ? ? ? c H|? ? ? ? ? ? c H|? ? ? ? ? ? ? ? c H|? ? ? ? lo hi lt ? ? mk c H|? ? ? ? ? ? ? c H|? ? ? ? ? ? ? ? c H|? ? ? ? ? ? ? c H|? ? ? ? c H|? ? ? ? ? ? ? c H].
  - unfold new_com_task in H. match type of H with bind ?x _ = _ => destruct x as [[]|]; cbn [bind] in H; [|discriminate] end.
    destruct (init_task _ _ _ _ _ _ _) as [a|] eqn:E; cbn in H; [|discriminate]. injection H as <-. cbn. discriminate.
  - unfold new_position_task in H. destruct (init_task _ _ _ _ _ _ _) as [a|] eqn:E; cbn in H; [|discriminate]. injection H as <-. reflexivity.
  - unfold new_frame_task in H. destruct (init_task _ _ _ _ _ _ _) as [a|] eqn:E; cbn in H; [|discriminate]. injection H as <-.
    apply init_task_cases in E. unfold v_id, get_obj. cbn. now destruct E as [_ ->].
  - unfold new_joint_task in H. destruct (init_task _ _ _ _ _ _ _) as [a|] eqn:E; cbn in H; [|discriminate]. injection H as <-.
    apply init_task_cases in E. unfold class_of. cbn. destruct E as [_ ->]. discriminate.
  - unfold new_custom_task in H. destruct (init_task _ _ _ _ _ _ _) as [a|] eqn:E; cbn in H; [|discriminate]. injection H as <-.
    apply init_task_cases in E. unfold class_of. cbn. destruct E as [_ ->]. discriminate.
  - intros _. unfold new_position_barrier in H.
    destruct (init_barrier _ _ _ _ _ _) as [a|] eqn:E; cbn in H; [|discriminate].
    destruct (negb _); [discriminate|]. destruct (from_str lt) as [l|]; cbn in H; [|discriminate].
    match type of H with (let (_, _) := ?x in _) = _ => destruct x as [idxs d] end.
    match type of H with context [new_comp ?x] => set (a1 := x) in H end.
    assert (I2 : forall c1, (match lo with None => Ok (new_comp a1) | Some x => run_init (new_comp a1) (update_p_min x) end) = Ok c1 -> v_id (c_at c1) = Some (-1)%Z).
    { intros c1. destruct lo as [x|]; [|intros X; now injection X as <-]. unfold run_init.
      pose proof (id_call (OpPMin x) (new_comp a1) I eq_refl) as K. unfold after in K. cbn [run_cop] in K.
      destruct (update_p_min x (new_comp a1)) as [[]]; [|discriminate]. intros X. injection X as <-. cbn [snd] in K. rewrite K. reflexivity. }
    match type of H with bind ?x _ = _ => destruct x as [c1|]; cbn [bind] in H; [|discriminate] end. specialize (I2 c1 eq_refl).
    destruct hi as [x|]; [|now injection H as <-]. unfold run_init in H.
    pose proof (id_call (OpPMax x) c1 I eq_refl) as K. unfold after in K. cbn [run_cop] in K.
    destruct (update_p_max x c1) as [[]]; [|discriminate]. injection H as <-. cbn [snd] in K. now rewrite K.
  - unfold new_joint_barrier in H. destruct (init_barrier _ _ _ _ _ _) as [a|] eqn:E; cbn in H; [|discriminate]. injection H as <-. unfold class_of. cbn. unfold init_barrier in E. apply init_comp_cases in E. destruct E as (_ & -> & _). discriminate.
  - unfold new_self_collision in H. destruct (init_barrier _ _ _ _ _ _) as [a|] eqn:E; cbn in H; [|discriminate]. injection H as <-. unfold class_of. cbn. unfold init_barrier in E. apply init_comp_cases in E. destruct E as (_ & -> & _). discriminate.
  - unfold new_custom_barrier in H. destruct (init_barrier _ _ _ _ _ _) as [a|] eqn:E; cbn in H; [|discriminate]. injection H as <-. unfold class_of. cbn. unfold init_barrier in E. apply init_comp_cases in E. destruct E as (_ & -> & _). discriminate.
  - unfold new_model_equality in H. destruct (init_component _ _ _ _ _) as [a|] eqn:E; cbn in H; [|discriminate]. injection H as <-. unfold class_of. cbn. apply init_comp_cases in E. destruct E as (_ & -> & _). discriminate.
  - unfold new_custom_constraint in H. destruct (init_component _ _ _ _ _) as [a|] eqn:E; cbn in H; [|discriminate]. injection H as <-. unfold class_of. cbn. apply init_comp_cases in E. destruct E as (_ & -> & _). discriminate.
Qed.
Lemma id_shows c i : v_id (c_at c) = Some i ->
  shows c AObjId = if barrier_class (class_of c) then (if (i =? -1)%Z then Err ValueError else Ok (VInt i)) else Ok (VInt i).
Proof.
  unfold v_id, shows, class_of, barrier_class. cbn. unfold get_obj.
  destruct (a_ext (c_at c)) as [? ? []|? []|? ? ? []]; try discriminate; intros H; injection H as <-; reflexivity.
Qed.
Lemma name2id_missing m ty n : wf_names m -> (forall i, ~ has_object m ty n i) -> name2id m ty n = (-1)%Z.
Proof.
  intros Hw H. destruct (Z.eq_dec (name2id m ty n) (-1)) as [E|E]; [exact E|]. exfalso. apply (H (name2id m ty n)). now apply name2id_spec.
Qed.
Lemma id_shown c us n ty : constructed c -> Forall public us -> object_class (class_of c) = Some (n, ty) ->
  (forall m i, last_model (calls us) None = Some m -> wf_names m -> has_object m ty n i -> shows (uses us c) AObjId = Ok (VInt i)) /\
  (last_model (calls us) None = None \/ (exists m, last_model (calls us) None = Some m /\ wf_names m /\ forall i, ~ has_object m ty n i) ->
   shows (uses us c) AObjId = if barrier_class (class_of c) then Err ValueError else Ok (VInt (-1))).
Proof.
  intros Hc HF K. rewrite shows_calls by (auto; discriminate).
  pose proof (id_history (calls us) n ty c (calls_are us HF) K None (constructed_id c n ty Hc K)) as V.
  pose proof (fixed_settings c (calls us) (calls_api us HF)) as (_ & _ & F & _).
  rewrite (id_shows _ _ V), F. split.
  - intros m i E Hw Hi. rewrite E in *. apply (name2id_spec m ty n i Hw) in Hi. destruct Hi as [-> Hi].
    apply Z.eqb_neq in Hi. rewrite Hi. now destruct (barrier_class _).
  - intros H. assert (E : match last_model (calls us) None with Some m => name2id m ty n | None => (-1)%Z end = (-1)%Z).
    { destruct H as [->|(m & -> & Hw & H)]; [reflexivity|now apply name2id_missing]. }
    rewrite E. reflexivity.
Qed.

(** ** target_q *)
Lemma bjm_ext m f c : a_ext (c_at (snd (bind_joint_masks m f c))) = a_ext (c_at c).
Proof.
  revert c. change (keeps a_ext (bind_joint_masks m f)). unfold bind_joint_masks.
  repeat first [apply k_ret|apply k_raise|apply k_read|apply k_lift|apply k_seta; reflexivity|apply k_seq|apply k_bind|progress intros
    |match goal with |- keeps _ (match ?x with _ => _ end) => destruct x end].
Qed.
Lemma tvec_last v : last_dim_neq (tvec v) (Z.of_nat (List.length v)) = Ok false.
Proof. unfold last_dim_neq, last_dim. cbn. now rewrite Z.eqb_refl. Qed.
Definition has {A} (x : option A) : bool := match x with Some _ => true | None => false end.
Lemma tq_joint m j c w lm : a_ext (c_at c) = XTask w lm (TJoint j) -> jt_target j = None ->
  has (target_of (snd (update_model_joint_task m j c))) = is_ok (fst (update_model_joint_task m j c)).
Proof.
  intros E T. unfold update_model_joint_task. rewrite T. unfold mbind at 1 2. pose proof (bjm_ext m (jt_final j) c) as X.
  destruct (bind_joint_masks m (jt_final j) c) as [[[q v]|e] c'] eqn:B; cbn [snd fst] in *.
  - unfold mseq, mbind, seta. cbn. unfold update_target_q, mbind, read, set_jt_qidx. cbn. rewrite X, E. cbn.
    replace (Z.of_nat (List.length v) =? -1)%Z with false by (symmetry; apply Z.eqb_neq; lia). unfold lift.
    assert (HL : List.length (vzero (List.length v)) = List.length v) by apply repeat_length.
    pose proof (tvec_last (vzero (List.length v))) as Q. rewrite HL in Q. rewrite Q. reflexivity.
  - unfold target_of. rewrite X, E, T. reflexivity.
Qed.
Lemma tq_bind m c mk : class_of c = KJoint mk -> target_of c = None ->
  has (target_of (after (OpModel m) c)) = returned (OpModel m) c.
Proof.
  intros K T. rewrite returned_ok. unfold class_of, target_of in K, T. destruct (a_ext (c_at c)) as [w lm []|? []|? ? ? []] eqn:E; try discriminate K.
  unfold after. cbn [run_cop]. unfold update_model. unfold mbind at 1 2. unfold read at 1 2. rewrite E. now apply (tq_joint m j c w lm).
Qed.
Lemma tq_history os mk : forall c, Forall is_call os -> class_of c = KJoint mk ->
  has (target_of (history os c)) = (has (target_of c) || accepted_call sets_target_q os c)%bool.
Proof.
  induction os as [|o os IH]; intros c H K; [cbn; now rewrite Bool.orb_false_r|]. apply Forall_cons_iff in H. destruct H as [Ho H].
  assert (Ha : api_op o) by (now destruct o).
  cbn [history fold_left accepted_call]. change (fold_left _ os (after o c)) with (history os (after o c)).
  rewrite IH; [|exact H|now rewrite (class_step o c Ha : class_of (after o c) = class_of c)].
  rewrite Bool.orb_assoc. f_equal.
  destruct (target_of c) as [t|] eqn:T; cbn [has orb].
  - assert (Hn : no_array_frame o \/ exists f, o = OpTargetFrame f) by (destruct o; cbn; eauto).
    destruct Hn as [Hn|[f ->]].
    + pose proof (target_inv o c (conj Ha Hn)) as X. rewrite T in X. specialize (X ltac:(discriminate)). now destruct (target_of (after o c)).
    + unfold after. cbn [run_cop]. unfold update_target_frame, mbind, read, raise. unfold class_of in K.
      destruct (a_ext (c_at c)) as [? ? []|? []|? ? ? []] eqn:E; try discriminate K. cbn. now rewrite T.
  - destruct (is_bind o) eqn:B.
    + destruct o; try discriminate B. cbn [sets_target_q is_set_q is_bind orb andb]. now apply (tq_bind m c mk).
    + unfold sets_target_q. rewrite B, Bool.orb_false_r. unfold class_of, target_of in K, T.
      destruct (a_ext (c_at c)) as [w lm []|? []|? ? ? []] eqn:E; try discriminate K.
      rewrite returned_ok. unfold after. destruct o; try destruct Ho; try discriminate B; cbn [run_cop is_set_q andb];
      unfold update_gain, update_cost, update_target_com, update_target_pos, update_target_frame, update_target_q, update_p_min, update_p_max, update_q_min, update_q_max, mbind, read, lift, raise, ret;
      try rewrite E; unfold target_of; cbn; rewrite ?E, ?T; cbn; rewrite ?T; try reflexivity.
      * destruct (Nat.ltb 1 (ndim t)); cbn; rewrite E, T; reflexivity.
      * destruct (Nat.ltb 2 (ndim t)); cbn; rewrite ?E, T; reflexivity.
      * destruct (a_dim (c_at c) =? -1)%Z; cbn; [reflexivity|]. destruct (last_dim_neq t _) as [[]|]; cbn; rewrite ?E, ?T; reflexivity.
Qed.
Lemma constructed_target c mk : constructed c -> class_of c = KJoint mk -> target_of c = None.
Proof.
  intros H. destruct H as [? ? ? ? ? ? c H|? ? ? ? ? ? ? ? c H|? ? ? ? ? ? ? ? c H|? ? ? ? ? ? c H|? ? ? ? ? ? ? ? c H|name gain on ty lo hi lt gf sdg mk' c H|? ? ? ? ? ? ? c H|? ? ? ? ? ? ? ? c H|? ? ? ? ? ? ? c H|? ? ? ? c H|? ? ? ? ? ? ? c H].
  - unfold new_com_task in H. match type of H with bind ?x _ = _ => destruct x as [[]|]; cbn [bind] in H; [|discriminate] end.
    destruct (init_task _ _ _ _ _ _ _) as [a|] eqn:E; cbn in H; [|discriminate]. injection H as <-. cbn. discriminate.
  - unfold new_position_task in H. destruct (init_task _ _ _ _ _ _ _) as [a|] eqn:E; cbn in H; [|discriminate]. injection H as <-. discriminate.
  - unfold new_frame_task in H. destruct (init_task _ _ _ _ _ _ _) as [a|] eqn:E; cbn in H; [|discriminate]. injection H as <-.
    apply init_task_cases in E. unfold class_of. cbn. destruct E as [_ ->]. discriminate.
  - unfold new_joint_task in H. destruct (init_task _ _ _ _ _ _ _) as [a|] eqn:E; cbn in H; [|discriminate]. injection H as <-.
    apply init_task_cases in E. unfold target_of. cbn. destruct E as [_ ->]. reflexivity.
  - unfold new_custom_task in H. destruct (init_task _ _ _ _ _ _ _) as [a|] eqn:E; cbn in H; [|discriminate]. injection H as <-.
    apply init_task_cases in E. unfold class_of. cbn. destruct E as [_ ->]. discriminate.
  - destruct (pbar_inv_new _ _ _ _ _ _ _ _ _ _ _ H) as (l & _ & _ & _ & i & lo' & hi' & He & _). unfold class_of. rewrite He. discriminate.
  - unfold new_joint_barrier in H. destruct (init_barrier _ _ _ _ _ _) as [a|] eqn:E; cbn in H; [|discriminate]. injection H as <-. unfold class_of. cbn. unfold init_barrier in E. apply init_comp_cases in E. destruct E as (_ & -> & _). discriminate.
  - unfold new_self_collision in H. destruct (init_barrier _ _ _ _ _ _) as [a|] eqn:E; cbn in H; [|discriminate]. injection H as <-. unfold class_of. cbn. unfold init_barrier in E. apply init_comp_cases in E. destruct E as (_ & -> & _). discriminate.
  - unfold new_custom_barrier in H. destruct (init_barrier _ _ _ _ _ _) as [a|] eqn:E; cbn in H; [|discriminate]. injection H as <-. unfold class_of. cbn. unfold init_barrier in E. apply init_comp_cases in E. destruct E as (_ & -> & _). discriminate.
  - unfold new_model_equality in H. destruct (init_component _ _ _ _ _) as [a|] eqn:E; cbn in H; [|discriminate]. injection H as <-. unfold class_of. cbn. apply init_comp_cases in E. destruct E as (_ & -> & _). discriminate.
  - unfold new_custom_constraint in H. destruct (init_component _ _ _ _ _) as [a|] eqn:E; cbn in H; [|discriminate]. injection H as <-. unfold class_of. cbn. apply init_comp_cases in E. destruct E as (_ & -> & _). discriminate.
Qed.
Lemma target_q_readable c us mk : constructed c -> Forall public us -> class_of c = KJoint mk ->
  (is_ok (shows (uses us c) ATargetQ) = true <-> accepted_call sets_target_q (calls us) c = true) /\
  (is_ok (shows (uses us c) ATargetQ) = false -> shows (uses us c) ATargetQ = Err ValueError).
Proof.
  intros Hc HF K. rewrite shows_calls by (auto; discriminate).
  pose proof (fixed_settings c (calls us) (calls_api us HF)) as (_ & _ & F & _).
  rewrite (target_shows _ ATargetQ) by (rewrite F, K; reflexivity).
  pose proof (tq_history (calls us) mk c (calls_are us HF) K) as Q. rewrite (constructed_target c mk Hc K) in Q. cbn [has orb] in Q. rewrite <- Q.
  destruct (target_of (history (calls us) c)); cbn; split; auto; try tauto; discriminate.
Qed.

(** ** q_min and q_max *)
Lemma qn_joint m j c s : a_ext (c_at c) = XBarrier s (BJoint j) ->
  (jb_qmin j = None -> has (q_min_of (snd (update_model_joint_barrier m j c))) = is_ok (fst (update_model_joint_barrier m j c))) /\
  (jb_qmax j = None -> has (q_max_of (snd (update_model_joint_barrier m j c))) = is_ok (fst (update_model_joint_barrier m j c))) /\
  (has (jb_qmin j) = true -> has (q_min_of (snd (update_model_joint_barrier m j c))) = true) /\
  (has (jb_qmax j) = true -> has (q_max_of (snd (update_model_joint_barrier m j c))) = true).
Proof.
  intros E. unfold update_model_joint_barrier. unfold mbind. pose proof (bjm_ext m (jb_final j) c) as X.
  destruct (bind_joint_masks m (jb_final j) c) as [[[q v]|e] c'] eqn:B; cbn [snd fst] in *.
  2:{ unfold q_min_of, q_max_of. rewrite X, E. repeat split; intros T; rewrite ?T; reflexivity || (destruct (jb_qmin j), (jb_qmax j); cbn in *; congruence). }
  unfold mseq, mbind, seta. cbn. unfold set_jb_qidx. rewrite X, E. cbn.
  assert (L : List.length (scalar_ranges m fst) = List.length (scalar_ranges m snd)) by (unfold scalar_ranges; now rewrite !map_length).
  remember (2 * Z.of_nat (List.length v))%Z as d eqn:Ed.
  assert (D : (d =? -1)%Z = false) by (apply Z.eqb_neq; lia).
  destruct (jb_qmin j) as [lo|] eqn:Hlo, (jb_qmax j) as [hi|] eqn:Hhi; cbn;
  unfold update_q_min, update_q_max, mbind, read, lift, dim, last_dim, raise; cbn; rewrite ?Hlo, ?Hhi; cbn; rewrite ?D; cbn; unfold q_min_of, q_max_of; cbn; rewrite ?Hlo, ?Hhi; cbn; try (repeat split; (discriminate || reflexivity || congruence)).
  all: repeat match goal with |- context [negb (?x =? ?y)%Z] => destruct (x =? y)%Z eqn:?; cbn end; rewrite ?L in *; rewrite ?D; cbn; rewrite ?Hlo, ?Hhi; cbn;
    repeat match goal with |- context [negb (?x =? ?y)%Z] => destruct (x =? y)%Z eqn:?; cbn end; rewrite ?Hlo, ?Hhi; try (repeat split; (discriminate || reflexivity || congruence)).
Qed.

Lemma joint_barrier_step o c mk : is_call o -> class_of c = KJointBarrier mk ->
  has (q_min_of (after o c)) = (has (q_min_of c) || (sets_q_min o && returned o c))%bool /\
  has (q_max_of (after o c)) = (has (q_max_of c) || (sets_q_max o && returned o c))%bool.
Proof.
  intros Ho K. unfold class_of in K. destruct (a_ext (c_at c)) as [w lm []|s []|? ? ? []] eqn:E; try discriminate K.
  assert (Q1 : q_min_of c = jb_qmin j) by (unfold q_min_of; now rewrite E).
  assert (Q2 : q_max_of c = jb_qmax j) by (unfold q_max_of; now rewrite E).
  rewrite Q1, Q2, returned_ok. unfold after, sets_q_min, sets_q_max.
  destruct (is_bind o) eqn:B.
  - destruct o; try discriminate B. cbn [run_cop is_set_q_min is_set_q_max is_bind orb andb].
    unfold update_model. unfold mbind. unfold read. rewrite E.
    destruct (qn_joint m j c s E) as (P1 & P2 & P3 & P4). cbn [fst snd] in *.
    split; [destruct (jb_qmin j); cbn [has orb]|destruct (jb_qmax j); cbn [has orb]]; auto.
  - rewrite !Bool.orb_false_r. destruct o; try destruct Ho; try discriminate B; cbn [run_cop is_set_q_min is_set_q_max andb]; rewrite ?Bool.orb_false_r;
    unfold update_gain, update_cost, update_target_com, update_target_pos, update_target_frame, update_target_q, update_p_min, update_p_max, update_q_min, update_q_max, mbind, read, lift, raise, ret;
    try rewrite E; unfold q_min_of, q_max_of; cbn; rewrite ?E; cbn; try (split; reflexivity).
    + destruct (Nat.ltb 1 (ndim t)); cbn; rewrite E; split; reflexivity.
    + destruct (last_dim t); cbn; rewrite ?E, ?Bool.orb_false_r; [|split; reflexivity].
      destruct (dim (c_at c)); cbn; rewrite ?E, ?Bool.orb_false_r; [|split; reflexivity].
      destruct (negb _); cbn; rewrite ?E, ?Bool.orb_false_r; cbn; rewrite ?Bool.orb_true_r; split; reflexivity.
    + destruct (last_dim t); cbn; rewrite ?E, ?Bool.orb_false_r; [|split; reflexivity].
      destruct (dim (c_at c)); cbn; rewrite ?E, ?Bool.orb_false_r; [|split; reflexivity].
      destruct (negb _); cbn; rewrite ?E, ?Bool.orb_false_r; cbn; rewrite ?Bool.orb_true_r; split; reflexivity.
Qed.
Lemma joint_barrier_history os mk : forall c, Forall is_call os -> class_of c = KJointBarrier mk ->
  has (q_min_of (history os c)) = (has (q_min_of c) || accepted_call sets_q_min os c)%bool /\
  has (q_max_of (history os c)) = (has (q_max_of c) || accepted_call sets_q_max os c)%bool.
Proof.
  induction os as [|o os IH]; intros c H K; [cbn; now rewrite !Bool.orb_false_r|]. apply Forall_cons_iff in H. destruct H as [Ho H].
  assert (Ha : api_op o) by (now destruct o).
  cbn [history fold_left accepted_call]. change (fold_left _ os (after o c)) with (history os (after o c)).
  destruct (IH (after o c) H) as [I1 I2]; [now rewrite (class_step o c Ha : class_of (after o c) = class_of c)|]. rewrite I1, I2.
  destruct (joint_barrier_step o c mk Ho K) as [-> ->]. now rewrite !Bool.orb_assoc.
Qed.
Lemma q_shows c mk : class_of c = KJointBarrier mk ->
  shows c AQMin = match q_min_of c with Some t => Ok (VArray t) | None => Err ValueError end /\
  shows c AQMax = match q_max_of c with Some t => Ok (VArray t) | None => Err ValueError end.
Proof.
  unfold class_of, q_min_of, q_max_of, shows. cbn. unfold get_jbar. destruct (a_ext (c_at c)) as [? ? []|? []|? ? ? []]; try discriminate; intros _; cbn.
  split; [destruct (jb_qmin j)|destruct (jb_qmax j)]; reflexivity.
Qed.
Lemma limits_readable c us mk : constructed c -> Forall public us -> class_of c = KJointBarrier mk ->
  (is_ok (shows (uses us c) AQMin) = true <-> is_ok (shows c AQMin) = true \/ accepted_call sets_q_min (calls us) c = true) /\
  (is_ok (shows (uses us c) AQMax) = true <-> is_ok (shows c AQMax) = true \/ accepted_call sets_q_max (calls us) c = true).
Proof.
  intros Hc HF K. rewrite !shows_calls by (auto; discriminate).
  pose proof (fixed_settings c (calls us) (calls_api us HF)) as (_ & _ & F & _). rewrite K in F.
  destruct (q_shows c mk K) as [-> ->]. destruct (q_shows _ mk F) as [-> ->].
  destruct (joint_barrier_history (calls us) mk c (calls_are us HF) K) as [H1 H2].
  split; [destruct (q_min_of (history (calls us) c)), (q_min_of c)|destruct (q_max_of (history (calls us) c)), (q_max_of c)]; cbn in *; rewrite <- ?H1, <- ?H2; split; auto; intros [|]; congruence.
Qed.
Lemma limits_shown c us mk lo hi : constructed c -> Forall public us -> class_of c = KJointBarrier mk ->
  shows c AQMin = Ok (VArray lo) -> shows c AQMax = Ok (VArray hi) ->
  exists lo' hi', last_accepted asks_q_min (calls us) c (Some lo) = Some lo' /\ shows (uses us c) AQMin = Ok (VArray lo') /\
                  last_accepted asks_q_max (calls us) c (Some hi) = Some hi' /\ shows (uses us c) AQMax = Ok (VArray hi').
Proof.
  intros Hc HF K. rewrite !shows_calls by (auto; discriminate).
  pose proof (fixed_settings c (calls us) (calls_api us HF)) as (_ & _ & F & _). rewrite K in F.
  destruct (q_shows c mk K) as [-> ->]. destruct (q_shows _ mk F) as [-> ->].
  destruct (joint_barrier_history (calls us) mk c (calls_are us HF) K) as [H1 H2].
  destruct (q_min_of c) as [l|] eqn:El; [|discriminate]. destruct (q_max_of c) as [h|] eqn:Eh; [|discriminate].
  intros X Y. injection X as ->. injection Y as ->.
  destruct (q_register c (calls us) (calls_api us HF)) as [R1 R2]; try congruence. rewrite El in R1. rewrite Eh in R2. rewrite <- R1, <- R2.
  destruct (q_min_of (history (calls us) c)) as [l|]; [|discriminate]. destruct (q_max_of (history (calls us) c)) as [h|]; [|discriminate]. eauto 8.
Qed.
Lemma p_shows c n ty lt : class_of c = KPosBarrier n ty lt ->
  exists lo hi, p_min_of c = Some lo /\ p_max_of c = Some hi /\ shows c APMin = Ok (VArray lo) /\ shows c APMax = Ok (VArray hi).
Proof.
  unfold class_of, p_min_of, p_max_of, shows. cbn. unfold get_pbar. destruct (a_ext (c_at c)) as [? ? []|? []|? ? ? []]; try discriminate; intros _; cbn. eauto 8.
Qed.
Lemma p_shown name gain on ty lo hi lts gf sdg mk c us : new_position_barrier name gain on ty lo hi lts gf sdg mk = Ok c -> Forall public us ->
  exists lt plo phi, from_str lts = Ok lt /\ shows c APMin = Ok (VArray plo) /\ shows c APMax = Ok (VArray phi) /\
  exists plo' phi', last_accepted (asks_p_min lt (n_axes mk)) (calls us) c (Some plo) = Some plo' /\ shows (uses us c) APMin = Ok (VArray plo') /\
                    last_accepted (asks_p_max lt (n_axes mk)) (calls us) c (Some phi) = Some phi' /\ shows (uses us c) APMax = Ok (VArray phi').
Proof.
  intros Hn HF. assert (Hc : constructed c) by (eapply made_position_barrier; exact Hn).
  destruct (p_register _ _ _ _ _ _ _ _ _ _ _ (calls us) Hn (calls_api us HF)) as (lt & H1 & R1 & R2).
  destruct (pbar_inv_new _ _ _ _ _ _ _ _ _ _ _ Hn) as (lt' & _ & _ & _ & i & lo' & hi' & He & _).
  assert (K : exists n ty lt, class_of c = KPosBarrier n ty lt) by (unfold class_of; rewrite He; cbn; eauto).
  destruct K as (n & ty' & l & K). pose proof (fixed_settings c (calls us) (calls_api us HF)) as (_ & _ & F & _). rewrite K in F.
  destruct (p_shows c _ _ _ K) as (plo & phi & A1 & A2 & A3 & A4). destruct (p_shows _ _ _ _ F) as (plo' & phi' & B1 & B2 & B3 & B4).
  exists lt, plo, phi. split; [exact H1|]. split; [exact A3|]. split; [exact A4|]. exists plo', phi'.
  rewrite !shows_calls by (auto; discriminate). rewrite <- A1, <- A2, <- R1, <- R2. auto.
Qed.
