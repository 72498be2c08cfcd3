(** Histories of settings and their compiled values. *)
From Verif Require Import Base Lin LinFacts Mjx Typing Component SpecComponent SpecJoint SpecHistory SpecSettings ComponentFacts ComponentFacts2 CompThms CompThms2 ApiSteps BindFacts BindFacts2 BindThms2 CollideFacts3 CoreFacts FitFacts SettingFacts Witness.
Open Scope R_scope.
Open Scope Z_scope.
Open Scope nat_scope.
#[local] Arguments Nat.ltb : simpl never.
#[local] Arguments Nat.eqb : simpl never.

Lemma gain_register c os : Forall api_op os -> gain_of (history os c) = last_accepted asks_gain os c (gain_of c).
Proof. intros H. apply (registers asks_gain gain_of api_op (fun _ => True)); auto. intros; now apply gain_step. Qed.
Lemma cost_register c os : Forall api_op os -> cost_of (history os c) = last_accepted asks_cost os c (cost_of c).
Proof. intros H. apply (registers asks_cost cost_of api_op (fun _ => True)); auto. intros; now apply cost_step. Qed.
Lemma target_register c os : Forall api_op os -> Forall no_array_frame os -> target_of c <> None -> target_of (history os c) = last_accepted asks_target os c (target_of c).
Proof.
  intros H H2 H3. apply (registers asks_target target_of (fun o => api_op o /\ no_array_frame o) (fun c => target_of c <> None)); auto using target_step, target_inv.
  rewrite Forall_forall in *. auto.
Qed.
Lemma q_register c os : Forall api_op os -> q_min_of c <> None -> q_max_of c <> None ->
  q_min_of (history os c) = last_accepted asks_q_min os c (q_min_of c) /\ q_max_of (history os c) = last_accepted asks_q_max os c (q_max_of c).
Proof.
  intros H H1 H2. split.
  - apply (registers asks_q_min q_min_of api_op has_limits); auto using qmin_step, qlims_inv. now split.
  - apply (registers asks_q_max q_max_of api_op has_limits); auto using qmax_step, qlims_inv. now split.
Qed.
Lemma pbar_inv_after mk on ty sdg lt o c : api_op o -> pbar_inv mk on ty sdg lt (c_at c) -> pbar_inv mk on ty sdg lt (c_at (after o c)).
Proof.
  intros Ha Hi. apply (api_history (pbar_inv mk on ty sdg lt) [o] c); auto.
  - intros; eapply pbar_inv_step; eauto.
  - intros; now apply pbar_inv_bind.
Qed.
Lemma pbar_is mk on ty sdg lt c : pbar_inv mk on ty sdg lt (c_at c) -> pos_barrier lt (List.length (argwhere mk)) c.
Proof.
  intros (_ & (Hm & Hi) & i & lo & hi & He & _). split; [|split].
  - unfold class_of. rewrite He. cbn. eauto.
  - eauto.
  - now rewrite Hi.
Qed.
Lemma p_register name gain on ty lo hi lts gf sdg mk c os : new_position_barrier name gain on ty lo hi lts gf sdg mk = Ok c -> Forall api_op os ->
  exists lt, from_str lts = Ok lt /\ p_min_of (history os c) = last_accepted (asks_p_min lt (n_axes mk)) os c (p_min_of c) /\ p_max_of (history os c) = last_accepted (asks_p_max lt (n_axes mk)) os c (p_max_of c).
Proof.
  intros Hn Ho. destruct (pbar_inv_new _ _ _ _ _ _ _ _ _ _ _ Hn) as (lt & H1 & H2). exists lt. split; [exact H1|].
  set (K := match mk with Some k => mk_data k | None => [1%Z; 1%Z; 1%Z] end) in *.
  assert (En : n_axes mk = List.length (argwhere K)) by (symmetry; apply argwhere_length). rewrite En.
  split.
  - apply (registers (asks_p_min lt (List.length (argwhere K))) p_min_of api_op (fun c => pbar_inv K on ty sdg lt (c_at c))); auto using pbar_inv_after.
    intros o c' Ha Hi. apply pmin_step; [exact Ha|]. eapply pbar_is; eauto.
  - apply (registers (asks_p_max lt (List.length (argwhere K))) p_max_of api_op (fun c => pbar_inv K on ty sdg lt (c_at c))); auto using pbar_inv_after.
    intros o c' Ha Hi. apply pmax_step; [exact Ha|]. eapply pbar_is; eauto.
Qed.
Lemma fixed_settings c os : Forall api_op os ->
  a_name (c_at (history os c)) = a_name (c_at c) /\ a_gain_fn (c_at (history os c)) = a_gain_fn (c_at c) /\ class_of (history os c) = class_of c /\ extra_of (history os c) = extra_of c.
Proof.
  intros H. revert c. induction H as [|o os Ho _ IH]; intros c; [repeat split|]. cbn. destruct (IH (after o c)) as (I1 & I2 & I3 & I4). unfold history in *. rewrite I1, I2, I3, I4.
  pose proof (name_step o c Ho) as N. unfold v_name in N. injection N as N1 N2. split; [exact N1|]. split; [exact N2|]. split; [exact (class_step o c Ho)|exact (extra_step o c Ho)].
Qed.

(** Compiled values. *)
Lemma compiled_settings c os j : constructed c -> wf_arrays (c_at c) -> Forall wf_call os -> compiles (history os c) j ->
  exists d, j_dim j = Z.of_nat d /\ gain_means (last_accepted asks_gain os c (gain_of c)) d (j_gain j) /\ j_gain_fn j = a_gain_fn (c_at c) /\
  match j_ext j with
  | JTask W lm _ => exists t, last_accepted asks_cost os c (cost_of c) = Some t /\ cost_means t d W /\ extra_of c = Some lm
  | JBarrier s _ => extra_of c = Some s
  | JConstraint a h W _ => exists soft, constraint_of c = Some (a, h, soft) /\ cost_means (match soft with Some t => t | None => tscalar 100 end) d W
  end.
Proof.
  intros Hc Hw Ho Hj. assert (Ha : Forall api_op os) by (revert Ho; apply Forall_impl; intros []; cbn; auto; intros []).
  destruct (fixed_settings c os Ha) as (_ & F2 & F3 & F4).
  assert (W : wf_core (c_at (history os c))). { apply wf_core_history; [exact Ho|]. destruct Hw as [W1 W2]. split; [exact W1|]. destruct (a_ext (c_at c)); auto. }
  destruct W as [W1 W2]. apply published_reachable in Hj; [|exact Hc]. destruct Hj as (P1 & P2 & P3 & P4 & P5 & _ & P7).
  pose proof (vector_gain_dim _ _ P4) as D. exists (List.length (j_gain j)). split; [congruence|]. split.
  { rewrite <- gain_register by exact Ha. now apply (proj1 (vector_gain_full _ _ D W1)). }
  split; [congruence|]. rewrite <- F4. rewrite <- cost_register by exact Ha.
  inversion P7; match goal with
    | X : a_ext _ = XConstraint ?a ?h ?s ?k, Y : soft_constraint_cost _ = Ok ?W |- _ =>
        exists s; assert (Q : constraint_of c = Some (a, h, s)) by (unfold class_of in F3; unfold constraint_of; rewrite X in F3; destruct (a_ext (c_at c)) as [? ? []|? []|? ? ? []]; try discriminate F3; injection F3; intros; subst; reflexivity);
        split; [exact Q|]; apply (proj1 (soft_cost_full _ a h s k X
          ltac:(intros t0 ->; destruct Hw as [_ Hw]; unfold constraint_of in Q; destruct (a_ext (c_at c)); try discriminate Q; injection Q as -> -> ->; exact Hw) ltac:(rewrite D; lia)) _ _ D); exact Y
    | _ => idtac end; match goal with X : a_ext _ = _ |- _ => unfold cost_of, extra_of; rewrite X in *; try reflexivity end;
  (eexists; split; [reflexivity|]; split; [|reflexivity]; eapply (proj1 (matrix_cost_full _ _ _ _ ltac:(eassumption) W2)); eassumption).
Qed.
Lemma compiled_classes c os j : constructed c -> Forall api_op os -> compiles (history os c) j -> compiled_class (class_of c) j.
Proof.
  intros Hc Ha Hj. destruct (fixed_settings c os Ha) as (_ & _ & F3 & _). rewrite <- F3. apply published_reachable in Hj; [|exact Hc]. destruct Hj as (P1 & P2 & P3 & P4 & P5 & _ & P7).
  unfold compiled_class, class_of. inversion P7; match goal with X : a_ext _ = _ |- _ => rewrite X; auto end.
  cbn. split; [rewrite repeat_length, P2; lia|]. apply Forall_forall. intros x Hx. now apply repeat_spec in Hx.
Qed.
Lemma compiled_targets c os j : constructed c -> Forall api_op os -> Forall no_array_frame os -> target_of c <> None -> compiles (history os c) j ->
  compiled_target j = last_accepted asks_target os c (target_of c).
Proof.
  intros Hc Ha Hf Ht Hj. rewrite <- target_register by assumption. apply published_reachable in Hj; [|exact Hc]. destruct Hj as (P1 & P2 & P3 & P4 & P5 & _ & P7).
  unfold compiled_target. inversion P7; match goal with X : a_ext _ = _ |- _ => unfold target_of; rewrite X; reflexivity end.
Qed.
Lemma compiled_p name gain on ty lo hi lts gf sdg mk c os j : new_position_barrier name gain on ty lo hi lts gf sdg mk = Ok c -> Forall api_op os -> compiles (history os c) j ->
  exists lt, from_str lts = Ok lt /\ compiled_lower j = last_accepted (asks_p_min lt (n_axes mk)) os c (p_min_of c) /\ compiled_upper j = last_accepted (asks_p_max lt (n_axes mk)) os c (p_max_of c).
Proof.
  intros Hn Ha Hj. destruct (p_register _ _ _ _ _ _ _ _ _ _ _ os Hn Ha) as (lt & E & R1 & R2). exists lt. split; [exact E|]. rewrite <- R1, <- R2.
  destruct (pbar_history _ _ _ _ _ _ _ _ _ _ _ os Hn Ha) as (lt' & _ & _ & _ & i & l & h & He & _).
  apply published_reachable in Hj; [|eapply made_position_barrier; exact Hn]. destruct Hj as (_ & _ & _ & _ & _ & _ & P7).
  unfold compiled_lower, compiled_upper, p_min_of, p_max_of. inversion P7; match goal with X : a_ext _ = _ |- _ => try (rewrite He in X; discriminate X); rewrite X; split; reflexivity end.
Qed.
Lemma compiled_q c os j : constructed c -> Forall api_op os -> q_min_of c <> None -> q_max_of c <> None -> compiles (history os c) j ->
  compiled_lower j = last_accepted asks_q_min os c (q_min_of c) /\ compiled_upper j = last_accepted asks_q_max os c (q_max_of c).
Proof.
  intros Hc Ha H1 H2 Hj. destruct (q_register c os Ha H1 H2) as [E1 E2].
  assert (N : q_min_of (history os c) <> None).
  { destruct (q_register c os Ha H1 H2) as [_ _]. clear E1 E2 Hj Hc. revert c H1 H2. induction Ha as [|o os Ho _ IH]; intros c H1 H2; [exact H1|]. cbn. destruct (qlims_inv o c Ho (conj H1 H2)). now apply IH. }
  rewrite <- E1, <- E2. apply published_reachable in Hj; [|exact Hc]. destruct Hj as (_ & _ & _ & _ & _ & _ & P7).
  unfold compiled_lower, compiled_upper, q_min_of, q_max_of in *. inversion P7; match goal with X : a_ext _ = _ |- _ => rewrite X in *; try (exfalso; apply N; reflexivity); split; reflexivity end.
Qed.

(** Constructors. *)
Lemma init_starts name gain gf mk e a : init_component name gain gf mk e = Ok a ->
  a_name a = name /\ a_gain a = gain /\ (forall x, a_gain_fn a x = match gf with Some f => f x | None => x end) /\ a_ext a = e /\ a_mask_idxs a = match mk with Some k => argwhere (mk_data k) | None => [] end.
Proof.
  unfold init_component. destruct (Nat.ltb 1 (ndim gain)); [discriminate|]. destruct mk as [k|]; [destruct (negb _); [discriminate|]|]; intros H; injection H as <-; cbn; repeat split; now destruct gf.
Qed.
Lemma init_task_starts name cost gain gf lm mk k a : init_task name cost gain gf lm mk k = Ok a ->
  a_name a = name /\ a_gain a = gain /\ (forall x, a_gain_fn a x = match gf with Some f => f x | None => x end) /\ a_ext a = XTask cost lm k /\ a_mask_idxs a = match mk with Some k => argwhere (mk_data k) | None => [] end.
Proof.
  unfold init_task. destruct (init_component name gain gf mk _) as [a0|] eqn:E; [|discriminate]. cbn [bind]. destruct (Rlt_dec lm 0); [discriminate|]. destruct (Nat.ltb 2 _); [discriminate|].
  intros H. injection H as <-. now apply init_starts in E.
Qed.
Lemma dim_or_sel n mk a : a_mask_idxs a = match mk with Some k => argwhere (mk_data k) | None => [] end -> dim_or n mk a = n_sel n mk.
Proof. intros H. unfold dim_or, n_sel. destruct mk; [|reflexivity]. rewrite H. apply argwhere_length. Qed.
Lemma vzero_repeat n : vzero n = repeat 0%R n. Proof. unfold vzero, vconst. reflexivity. Qed.
Lemma start_com name cost gain gf lm mk c : new_com_task name cost gain gf lm mk = Ok c ->
  starts name gain gf c /\ class_of c = KCom /\ cost_of c = Some cost /\ extra_of c = Some lm /\ target_of c = Some (tvec (repeat 0%R (n_sel 3 mk))).
Proof.
  unfold new_com_task. intros H. match type of H with bind ?x _ = _ => destruct x as [u|]; [|discriminate] end. cbn [bind] in H. destruct (init_task _ _ _ _ _ _ _) as [a|] eqn:E; [|discriminate]. cbn [bind] in H.
  injection H as <-. apply init_task_starts in E. destruct E as (E1 & E2 & E3 & E4 & E5). rewrite (dim_or_sel _ _ _ E5), vzero_repeat. repeat split; auto.
Qed.
Lemma start_pos name cost gain on ty gf lm mk c : new_position_task name cost gain on ty gf lm mk = Ok c ->
  starts name gain gf c /\ class_of c = KPos on ty /\ cost_of c = Some cost /\ extra_of c = Some lm /\ target_of c = Some (tvec (repeat 0%R (n_sel 3 mk))).
Proof.
  unfold new_position_task. intros H. destruct (init_task _ _ _ _ _ _ _) as [a|] eqn:E; [|discriminate]. cbn [bind] in H.
  injection H as <-. apply init_task_starts in E. destruct E as (E1 & E2 & E3 & E4 & E5). rewrite (dim_or_sel _ _ _ E5), vzero_repeat. repeat split; auto.
Qed.
Lemma start_frame name cost gain on ty gf lm mk c : new_frame_task name cost gain on ty gf lm mk = Ok c ->
  starts name gain gf c /\ class_of c = KFrame on ty /\ cost_of c = Some cost /\ extra_of c = Some lm /\ target_of c = Some (tvec [1; 0; 0; 0; 0; 0; 0]%R).
Proof.
  unfold new_frame_task. intros H. destruct (init_task _ _ _ _ _ _ _) as [a|] eqn:E; [|discriminate]. cbn [bind] in H.
  injection H as <-. apply init_task_starts in E. destruct E as (E1 & E2 & E3 & E4 & E5). unfold class_of, cost_of, extra_of, target_of. cbn. rewrite E4. repeat split; auto.
Qed.
Lemma start_joint name cost gain gf lm mk c : new_joint_task name cost gain gf lm mk = Ok c ->
  starts name gain gf c /\ class_of c = KJoint mk /\ cost_of c = Some cost /\ extra_of c = Some lm /\ target_of c = None.
Proof.
  unfold new_joint_task. intros H. destruct (init_task _ _ _ _ _ _ _) as [a|] eqn:E; [|discriminate]. cbn [bind] in H.
  injection H as <-. apply init_task_starts in E. destruct E as (E1 & E2 & E3 & E4 & E5). unfold class_of, cost_of, extra_of, target_of. cbn. rewrite E4. repeat split; auto.
Qed.
Lemma run_init_keeps {B} (V : attrs -> B) c m c' : keeps V m -> run_init c m = Ok c' -> V (c_at c') = V (c_at c).
Proof. intros K. unfold run_init. specialize (K c). destruct (m c) as [[u|e] c1]; [|discriminate]. intros H. injection H as <-. exact K. Qed.
Lemma run_init_op c o c' : run_init c (run_cop o) = Ok c' -> returned o c = true /\ c' = after o c.
Proof. unfold run_init, returned, after. destruct (run_cop o c) as [[[]|e] c1]; [|discriminate]. intros H. injection H as <-. now split. Qed.
Lemma start_pbar name gain on ty lo hi lts gf sdg mk c : new_position_barrier name gain on ty lo hi lts gf sdg mk = Ok c -> exists lt, from_str lts = Ok lt /\
  starts name gain gf c /\ class_of c = KPosBarrier on ty lt /\ extra_of c = Some sdg /\
  p_min_of c = Some (match lo, lt with Some t, (LMin | LBoth) => spread (n_axes mk) t | _, _ => tvec (repeat 0%R (n_axes mk)) end) /\
  p_max_of c = Some (match hi, lt with Some t, (LMax | LBoth) => spread (n_axes mk) t | _, _ => tvec (repeat 0%R (n_axes mk)) end).
Proof.
  unfold new_position_barrier, init_barrier, init_component.
  set (k := match mk with Some k => k | None => mvec [1%Z; 1%Z; 1%Z] end).
  destruct (Nat.ltb 1 (ndim gain)); cbn; [discriminate|].
  destruct (negb (Nat.eqb (List.length (mk_shape k)) 1)); cbn; [discriminate|].
  destruct (negb _); [discriminate|].
  destruct (from_str lts) as [lt|]; cbn; [|discriminate]. intros H. exists lt. split; [reflexivity|].
  set (n := List.length (argwhere (mk_data k))) in *.
  assert (En : n = n_axes mk) by (unfold n; rewrite argwhere_length; unfold k; now destruct mk).
  set (st := fun x y => mkA name None gain (match gf with Some f => f | None => fun x => x end) (Z.of_nat (pb_dim lt n))
     (Some (mk_data k)) (argwhere (mk_data k)) (XBarrier sdg (BPos (mkPB (mkO on ty (-1)) lt (pb_idxs lt n) x y)))).
  set (P := fun c => pbar_inv (mk_data k) on ty sdg lt (c_at c)).
  set (c0 := new_comp (st (tvec (vzero n)) (tvec (vzero n)))).
  assert (P0 : P c0).
  { unfold P, pbar_inv, c0, st. fold n. split; [reflexivity|]. split; [now split|]. cbn. do 3 eexists. split; [reflexivity|].
    rewrite ApiSteps.last_dim_tvec, vzero_length. now split. }
  assert (H' : (do c1 <- match lo with None => Ok c0 | Some x => run_init c0 (update_p_min x) end;
    match hi with None => Ok c1 | Some x => run_init c1 (update_p_max x) end) = Ok c).
  { rewrite <- H. unfold c0, st. destruct lt; cbn [pb_dim pb_idxs]; try reflexivity.
    replace (Z.of_nat (2 * n)) with (2 * Z.of_nat n)%Z by lia. reflexivity. }
  clear H.
  assert (S1 : exists c1, match hi with None => Ok c1 | Some x => run_init c1 (update_p_max x) end = Ok c /\ P c1 /\ v_name (c_at c1) = v_name (c_at c0) /\ gain_of c1 = gain /\ class_of c1 = class_of c0 /\ extra_of c1 = extra_of c0 /\
     p_min_of c1 = Some (match lo, lt with Some t, (LMin | LBoth) => spread n t | _, _ => tvec (repeat 0%R n) end) /\ p_max_of c1 = Some (tvec (repeat 0%R n))).
  { destruct lo as [x|]; [|exists c0; split; [exact H'|]; split; [exact P0|]; do 4 (split; [reflexivity|]); split; [destruct lt|]; reflexivity].
    destruct (run_init c0 (update_p_min x)) as [c1|] eqn:E1; [|discriminate]. exists c1. split; [exact H'|].
    apply (run_init_op c0 (OpPMin x) c1) in E1. destruct E1 as [R ->]. split; [apply pbar_inv_after; [exact I|exact P0]|].
    split; [now apply name_step|]. split; [exact (gain_step (OpPMin x) c0 I)|]. split; [exact (class_step (OpPMin x) c0 I)|]. split; [exact (extra_step (OpPMin x) c0 I)|].
    rewrite (pmin_step lt n (OpPMin x) c0 I (pbar_is _ _ _ _ _ _ P0)), R. rewrite pmax_keep by (exact I || discriminate). split; [|reflexivity]. destruct lt; reflexivity. }
  destruct S1 as (c1 & H2 & P1 & N1 & G1 & K1 & X1 & L1 & U1). clear H'.
  assert (S2 : P c /\ v_name (c_at c) = v_name (c_at c0) /\ gain_of c = gain /\ class_of c = class_of c0 /\ extra_of c = extra_of c0 /\ p_min_of c = p_min_of c1 /\
     p_max_of c = Some (match hi, lt with Some t, (LMax | LBoth) => spread n t | _, _ => tvec (repeat 0%R n) end)).
  { destruct hi as [x|]; [|injection H2 as <-; split; [exact P1|]; do 5 (split; [first [assumption|reflexivity]|]); exact U1].
    apply (run_init_op c1 (OpPMax x) c) in H2. destruct H2 as [R ->]. split; [apply pbar_inv_after; [exact I|exact P1]|].
    split; [rewrite <- N1; now apply name_step|]. split; [rewrite <- G1; exact (gain_step (OpPMax x) c1 I)|]. split; [rewrite <- K1; exact (class_step (OpPMax x) c1 I)|]. split; [rewrite <- X1; exact (extra_step (OpPMax x) c1 I)|].
    rewrite (pmax_step lt n (OpPMax x) c1 I (pbar_is _ _ _ _ _ _ P1)), R. rewrite pmin_keep by (exact I || discriminate). split; [reflexivity|]. destruct lt; cbn; try reflexivity; exact U1. }
  destruct S2 as (_ & N2 & G2 & K2 & X2 & L2 & U2). unfold v_name in N2. injection N2 as N3 N4. rewrite En in *.
  split; [split; [exact N3|split; [exact G2|intros x; rewrite N4; now destruct gf]]|]. split; [exact K2|]. split; [exact X2|]. split; [rewrite L2; exact L1|exact U2].
Qed.
Lemma start_jbar name gain gf sdg lo hi mk c : new_joint_barrier name gain gf sdg lo hi mk = Ok c ->
  starts name gain gf c /\ class_of c = KJointBarrier mk /\ extra_of c = Some sdg /\ q_min_of c = lo /\ q_max_of c = hi.
Proof.
  unfold new_joint_barrier, init_barrier. intros H. destruct (init_component _ _ _ _ _) as [a|] eqn:E; [|discriminate]. cbn [bind] in H. injection H as <-.
  apply init_starts in E. destruct E as (E1 & E2 & E3 & E4 & E5). unfold class_of, extra_of, q_min_of, q_max_of. cbn. rewrite E4. repeat split; auto.
Qed.
Lemma start_self name gain gf sdg dm bs er n c : new_self_collision name gain gf sdg dm bs er n = Ok c ->
  starts name gain gf c /\ class_of c = KSelf dm er /\ extra_of c = Some sdg.
Proof.
  unfold new_self_collision, init_barrier. intros H. destruct (init_component _ _ _ _ _) as [a|] eqn:E; [|discriminate]. cbn [bind] in H. injection H as <-.
  apply init_starts in E. destruct E as (E1 & E2 & E3 & E4 & E5). unfold class_of, extra_of. cbn. rewrite E4. repeat split; auto.
Qed.
Lemma start_equality name gain hard soft c : new_model_equality name gain hard soft = Ok c -> starts name gain None c /\ class_of c = KEquality true hard soft.
Proof.
  unfold new_model_equality. intros H. destruct (init_component _ _ _ _ _) as [a|] eqn:E; [|discriminate]. cbn [bind] in H. injection H as <-.
  apply init_starts in E. destruct E as (E1 & E2 & E3 & E4 & E5). unfold class_of. cbn. rewrite E4. repeat split; auto.
Qed.
Lemma start_custom_task name cost gain gf lm mk d f c : new_custom_task name cost gain gf lm mk d f = Ok c ->
  starts name gain gf c /\ class_of c = KCustomT f /\ cost_of c = Some cost /\ extra_of c = Some lm /\ a_dim (c_at c) = d.
Proof.
  unfold new_custom_task, init_task. intros H. destruct (init_component _ _ _ _ _) as [a|] eqn:E; [|discriminate]. cbn [bind] in H. destruct (Rlt_dec lm 0); [discriminate|]. destruct (Nat.ltb 2 (ndim cost)); [discriminate|]. cbn [bind] in H. injection H as <-.
  apply init_starts in E. destruct E as (E1 & E2 & E3 & E4 & E5). unfold class_of, cost_of, extra_of. cbn. rewrite E4. repeat split; auto.
Qed.
Lemma start_custom_barrier name gain gf sdg mk d f c : new_custom_barrier name gain gf sdg mk d f = Ok c ->
  starts name gain gf c /\ class_of c = KCustomB f /\ extra_of c = Some sdg /\ a_dim (c_at c) = d.
Proof.
  unfold new_custom_barrier, init_barrier. intros H. destruct (init_component _ _ _ _ _) as [a|] eqn:E; [|discriminate]. cbn [bind] in H. injection H as <-.
  apply init_starts in E. destruct E as (E1 & E2 & E3 & E4 & E5). unfold class_of, extra_of. cbn. rewrite E4. repeat split; auto.
Qed.
Lemma start_custom_constraint name gain mk hard soft d f c : new_custom_constraint name gain mk hard soft d f = Ok c ->
  starts name gain None c /\ class_of c = KCustomC true hard soft f /\ constraint_of c = Some (true, hard, soft) /\ a_dim (c_at c) = d.
Proof.
  unfold new_custom_constraint. intros H. destruct (init_component _ _ _ _ _) as [a|] eqn:E; [|discriminate]. cbn [bind] in H. injection H as <-.
  apply init_starts in E. destruct E as (E1 & E2 & E3 & E4 & E5). unfold class_of, constraint_of. cbn. rewrite E4. repeat split; auto.
Qed.
