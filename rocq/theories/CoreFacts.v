(** What model binding and the setters leave alone, and the exceptions of
    [jax_component] over API histories. *)
From Verif Require Import Base Lin LinFacts Mjx Typing Component SpecComponent ComponentFacts ComponentFacts2
  ApiSteps BindFacts3.
Open Scope R_scope.
Open Scope Z_scope.
Open Scope nat_scope.

#[local] Arguments Nat.ltb : simpl never.
#[local] Arguments Nat.eqb : simpl never.
#[local] Arguments build_component : simpl never.
#[local] Arguments last_dim : simpl never.
#[local] Arguments scalar_masks : simpl never.
#[local] Arguments scatter_bool : simpl never.
#[local] Arguments generate_collision_pairs : simpl never.
#[local] Arguments exclude_set : simpl never.
#[local] Arguments zrange : simpl never.
#[local] Arguments last_dim_neq : simpl never.

Definition ext_core (e : ext) : (tensor * R) + (R + bool * bool * option tensor) :=
  match e with
  | XTask c l _ => inl (c, l)
  | XBarrier s _ => inr (inl s)
  | XConstraint a h s _ => inr (inr (a, h, s))
  end.
Definition core (a : attrs) := (a_name a, a_gain a, a_gain_fn a, ext_core (a_ext a)).
Definition keeps {A} (m : M A) : Prop := forall c, core (c_at (snd (m c))) = core (c_at c).

Lemma keeps_ret A (x : A) : keeps (ret x). Proof. intros c. reflexivity. Qed.
Lemma keeps_raise A e : keeps (@raise A e). Proof. intros c. reflexivity. Qed.
Lemma keeps_read A (f : attrs -> res A) : keeps (read f). Proof. intros c. reflexivity. Qed.
Lemma keeps_lift A (r : res A) : keeps (lift r). Proof. intros c. reflexivity. Qed.
Lemma keeps_seta f : (forall a, core (f a) = core a) -> keeps (seta f). Proof. intros H c. apply H. Qed.
Lemma keeps_bind A B (m : M A) (f : A -> M B) : keeps m -> (forall a, keeps (f a)) -> keeps (mbind m f).
Proof.
  intros Hm Hf c. unfold mbind. specialize (Hm c). destruct (m c) as [[a|e] c']; cbn in *; [|exact Hm].
  now rewrite Hf.
Qed.
Lemma keeps_seq A B (m : M A) (m' : M B) : keeps m -> keeps m' -> keeps (mseq m m').
Proof. intros. apply keeps_bind; auto. Qed.

Ltac keeps :=
  repeat first [ apply keeps_ret | apply keeps_raise | apply keeps_read | apply keeps_lift
    | apply keeps_bind; [|intros] | apply keeps_seq
    | apply keeps_seta; intros; reflexivity
    | match goal with |- keeps (if ?b then _ else _) => destruct b end
    | match goal with |- keeps (match ?x with _ => _ end) => destruct x end ].

Lemma keeps_force : keeps force_mask. Proof. unfold force_mask. keeps. Qed.
Lemma keeps_mask : keeps mask. Proof. unfold mask. keeps; apply keeps_force. Qed.
Lemma keeps_mask_idxs : keeps mask_idxs. Proof. unfold mask_idxs. keeps; apply keeps_force. Qed.

Ltac by_ext := intros c; unfold mbind, read, lift, raise, seta, ret; cbn;
  destruct (a_ext (c_at c)) as [? ? []|? []|] eqn:?E; cbn; try reflexivity;
  repeat (match goal with |- context [match ?x with _ => _ end] => destruct x end; cbn; try reflexivity);
  unfold core; cbn; rewrite ?E; try reflexivity.

Lemma keeps_com t : keeps (update_target_com t). Proof. unfold update_target_com. by_ext. Qed.
Lemma keeps_pos t : keeps (update_target_pos t). Proof. unfold update_target_pos. by_ext. Qed.
Lemma keeps_frame t : keeps (update_target_frame t). Proof. unfold update_target_frame. by_ext. Qed.
Lemma keeps_q t : keeps (update_target_q t).
Proof.
  intros c. unfold update_target_q, mbind, read, lift, raise, seta, ret. cbn.
  destruct (a_ext (c_at c)) as [? ? []|? []|] eqn:E; cbn; try reflexivity.
  destruct (a_dim (c_at c) =? -1)%Z; [|destruct (last_dim_neq t _) as [[]|]]; cbn; try reflexivity; unfold core; cbn; rewrite E; reflexivity.
Qed.
Lemma keeps_qmin t : keeps (update_q_min t). Proof. unfold update_q_min. by_ext. Qed.
Lemma keeps_qmax t : keeps (update_q_max t). Proof. unfold update_q_max. by_ext. Qed.

Lemma idxs_ext c : a_ext (c_at (snd (mask_idxs c))) = a_ext (c_at c) /\ core (c_at (snd (mask_idxs c))) = core (c_at c).
Proof.
  split; [|apply keeps_mask_idxs]. unfold mask_idxs, mseq, mbind. rewrite force_eq.
  destruct (forced (c_at c)) as [a'|e] eqn:F; cbn; [|reflexivity].
  destruct (a_mask (c_at c)); cbn; [reflexivity|]. now destruct (forced_other _ _ F) as (_ & _ & _ & _ & _ & ->).
Qed.
Lemma keeps_pmin t : keeps (update_p_min t).
Proof.
  unfold update_p_min. intros c. unfold mbind at 1, read. cbn.
  destruct (a_ext (c_at c)) as [? ? []|s []|] eqn:E; try reflexivity.
  destruct (idxs_ext c) as [Hx Hc]. unfold mbind at 1. destruct (mask_idxs c) as [[idx|e] c'] eqn:Ei; cbn in *; [|exact Hc].
  rewrite <- Hc. unfold mbind, lift, ret, raise, seta.
  destruct (Nat.eqb (ndim t) 0); [destruct (scalar_of t)|destruct (last_dim_neq t _) as [[]|]]; try reflexivity;
  match goal with |- context [negb ?b] => destruct b end; cbn; try reflexivity; unfold core; cbn; rewrite Hx, E; reflexivity.
Qed.
Lemma keeps_pmax t : keeps (update_p_max t).
Proof.
  unfold update_p_max. intros c. unfold mbind at 1, read. cbn.
  destruct (a_ext (c_at c)) as [? ? []|s []|] eqn:E; try reflexivity.
  destruct (idxs_ext c) as [Hx Hc]. unfold mbind at 1. destruct (mask_idxs c) as [[idx|e] c'] eqn:Ei; cbn in *; [|exact Hc].
  rewrite <- Hc. unfold mbind, lift, ret, raise, seta.
  destruct (Nat.eqb (ndim t) 0); [destruct (scalar_of t)|destruct (last_dim_neq t _) as [[]|]]; try reflexivity;
  match goal with |- context [negb ?b] => destruct b end; cbn; try reflexivity; unfold core; cbn; rewrite Hx, E; reflexivity.
Qed.
Lemma keeps_jax : keeps jax_component.
Proof.
  unfold jax_component. apply keeps_bind; [apply keeps_read|]. intros [m|]; [|apply keeps_raise].
  apply keeps_bind; [apply keeps_read|]. intros d. destruct (d =? -1)%Z; [apply keeps_raise|].
  intros c. destruct (c_modified c).
  - assert (K : keeps build_component).
    { unfold build_component. keeps; apply keeps_mask_idxs. }
    specialize (K c). destruct (build_component c) as [[j|e] c']; exact K.
  - destruct (c_cache c); reflexivity.
Qed.

Lemma core_set_id a i : core (set_obj_id a i) = core a.
Proof. unfold set_obj_id, core. destruct (a_ext a) as [? ? []|? []|] eqn:E; cbn; rewrite ?E; reflexivity. Qed.
Lemma core_jt a q : core (set_jt_qidx a q) = core a.
Proof. unfold set_jt_qidx, core. destruct (a_ext a) as [? ? []|? []|] eqn:E; cbn; rewrite ?E; reflexivity. Qed.
Lemma core_jb a q : core (set_jb_qidx a q) = core a.
Proof. unfold set_jb_qidx, core. destruct (a_ext a) as [? ? []|? []|] eqn:E; cbn; rewrite ?E; reflexivity. Qed.
Lemma core_self f a : core (upd_self f a) = core a.
Proof. unfold upd_self, core. destruct (a_ext a) as [? ? []|? []|] eqn:E; cbn; rewrite ?E; reflexivity. Qed.

Lemma keeps_update_model m : keeps (update_model m).
Proof.
  unfold update_model. apply keeps_bind; [apply keeps_read|]. intros e.
  assert (Kj : forall f, keeps (bind_joint_masks m f)) by (intros f; unfold bind_joint_masks; keeps).
  assert (Ko : forall o, keeps (update_model_obj m o)).
  { intros o. unfold update_model_obj. apply keeps_seq; [apply keeps_seta; intros; apply core_set_id|]. keeps. }
  destruct e as [? ? []|? []|? ? ? []]; try (apply keeps_seta; reflexivity); try apply Ko.
  - unfold update_model_joint_task. apply keeps_bind; [apply Kj|]. intros qv.
    apply keeps_seq; [apply keeps_seta; intros; apply core_jt|]. apply keeps_seq; [keeps|].
    destruct (jt_target j); [keeps|apply keeps_q].
  - unfold update_model_joint_barrier. apply keeps_bind; [apply Kj|]. intros qv.
    apply keeps_seq; [apply keeps_seta; intros; apply core_jb|]. apply keeps_seq; [keeps|].
    apply keeps_seq; [destruct (jb_qmin j); [keeps|apply keeps_qmin]|destruct (jb_qmax j); [keeps|apply keeps_qmax]].
  - unfold update_model_self. keeps; try (apply keeps_seta; intros; apply core_self).
  - unfold update_model_equality. keeps.
Qed.

Lemma update_model_name m c : a_name (c_at (snd (update_model m c))) = a_name (c_at c).
Proof. pose proof (keeps_update_model m c) as H. unfold core in H. now injection H. Qed.

(** ** Which exception [jax_component] can raise *)
Definition wf_core (a : attrs) : Prop :=
  wf_tensor (a_gain a) /\
  match a_ext a with
  | XTask c _ _ => wf_tensor c
  | XBarrier _ _ => True
  | XConstraint _ _ (Some t) _ => wf_tensor t
  | XConstraint _ _ None _ => True
  end.
Definition wf_op (o : cop) : Prop :=
  match o with OpGain t | OpCost t => wf_tensor t | OpAssign _ => False | _ => True end.
Lemma wf_core_eq a a' : core a' = core a -> wf_core a -> wf_core a'.
Proof.
  unfold core, wf_core. intros H. injection H as H1 H2 H3 H4. rewrite H2. intros [Hg He]. split; [exact Hg|].
  destruct (a_ext a), (a_ext a'); cbn in H4; try discriminate; try exact I.
  - injection H4 as -> ->. exact He.
  - injection H4 as -> -> ->. exact He.
Qed.

(** The joint indices / collision pairs are known as soon as the dimension is. *)
Definition idx_inv (a : attrs) : Prop :=
  a_dim a <> (-1)%Z ->
  match a_ext a with
  | XTask _ _ (TJoint j) => jt_qidx j <> None
  | XBarrier _ (BJoint j) => jb_qidx j <> None
  | XBarrier _ (BSelf s) => sc_pairs s <> None
  | _ => True
  end.
Lemma idx_inv_step a a' : idx_inv a -> astep a a' -> idx_inv a'.
Proof.
  intros Hi Hs. unfold idx_inv in *. destruct Hs; cbn; try exact Hi; try (rewrite H in Hi; exact Hi).
  - destruct (forced_other _ _ H) as (_ & _ & _ & _ & -> & ->). exact Hi.
Qed.
Lemma bind_masks_idx m f c : 
  a_dim (c_at (snd (bind_joint_masks m f c))) = a_dim (c_at c) /\ a_ext (c_at (snd (bind_joint_masks m f c))) = a_ext (c_at c).
Proof.
  unfold bind_joint_masks, mseq, mbind, seta, lift. cbn. destruct (scalar_masks m) as [qv|e]; cbn; [|now split].
  destruct f as [f|]; cbn; [|now split]. destruct (negb _); cbn; [now split|].
  destruct (scatter_bool (snd qv) f); cbn; [|now split]. destruct (scatter_bool (fst qv) f); cbn; now split.
Qed.
Lemma q_idx t c : idx_inv (c_at c) -> idx_inv (c_at (snd (update_target_q t c))).
Proof. intros H. eapply BindFacts2.asteps_inv; [intros; eapply idx_inv_step; eauto|apply q_steps|exact H]. Qed.
Lemma qmin_idx t c : idx_inv (c_at c) -> idx_inv (c_at (snd (update_q_min t c))).
Proof. intros H. eapply BindFacts2.asteps_inv; [intros; eapply idx_inv_step; eauto|apply qmin_steps|exact H]. Qed.
Lemma qmax_idx t c : idx_inv (c_at c) -> idx_inv (c_at (snd (update_q_max t c))).
Proof. intros H. eapply BindFacts2.asteps_inv; [intros; eapply idx_inv_step; eauto|apply qmax_steps|exact H]. Qed.

Lemma idx_inv_bind c m : idx_inv (c_at c) -> idx_inv (c_at (snd (update_model m c))).
Proof.
  intros Hi. destruct (a_ext (c_at c)) as [? ? []|? []|? ? ? []] eqn:E;
   try (unfold update_model, mbind, read; rewrite E; unfold idx_inv; cbn; rewrite E; intros; exact I).
  - assert (Ho : object_of (c_at c) = Some o) by (unfold object_of; now rewrite E).
    rewrite (BindFacts2.obj_bind m c _ Ho). unfold idx_inv, set_obj_id. rewrite E. destruct (_ =? _)%Z; cbn; auto.
  - assert (Ho : object_of (c_at c) = Some o) by (unfold object_of; now rewrite E).
    rewrite (BindFacts2.obj_bind m c _ Ho). unfold idx_inv, set_obj_id. rewrite E. destruct (_ =? _)%Z; cbn; auto.
  - assert (HU : update_model m c = update_model_joint_task m j c) by (unfold update_model, mbind, read; now rewrite E).
    rewrite HU. unfold update_model_joint_task, mseq, mbind at 1.
    destruct (bind_masks_idx m (jt_final j) c) as [Hd He].
    destruct (bind_joint_masks m (jt_final j) c) as [[qv|e] c'] eqn:Eb; cbn [fst snd] in *.
    2: { unfold idx_inv in *. now rewrite Hd, He. }
    unfold seta, mbind at 1 2. cbn [fst snd c_at c_cache].
    set (c2 := mkC (set_a_dim (set_jt_qidx (c_at c') (fst qv)) _) true (c_cache c')).
    assert (I2 : idx_inv (c_at c2)).
    { unfold idx_inv, c2, set_jt_qidx. cbn. rewrite He, E. cbn. discriminate. }
    destruct (jt_target j); [|now apply q_idx].
    unfold mbind, lift. destruct (last_dim_neq t _) as [[]|]; exact I2.
  - assert (Ho : object_of (c_at c) = Some (pb_obj p)) by (unfold object_of; now rewrite E).
    rewrite (BindFacts2.obj_bind m c _ Ho). unfold idx_inv, set_obj_id. rewrite E. destruct (_ =? _)%Z; cbn; auto.
  - assert (HU : update_model m c = update_model_joint_barrier m j c) by (unfold update_model, mbind, read; now rewrite E).
    rewrite HU. unfold update_model_joint_barrier, mseq, mbind at 1.
    destruct (bind_masks_idx m (jb_final j) c) as [Hd He].
    destruct (bind_joint_masks m (jb_final j) c) as [[qv|e] c'] eqn:Eb; cbn [fst snd] in *.
    2: { unfold idx_inv in *. now rewrite Hd, He. }
    unfold seta, mbind at 1 2. cbn [fst snd c_at c_cache].
    set (c2 := mkC (set_a_dim (set_jb_qidx (c_at c') (fst qv)) _) true (c_cache c')).
    assert (I2 : idx_inv (c_at c2)).
    { unfold idx_inv, c2, set_jb_qidx. cbn. rewrite He, E. cbn. discriminate. }
    unfold mbind.
    assert (I3 : idx_inv (c_at (snd (match jb_qmin j with None => update_q_min (tvec (scalar_ranges m fst)) | Some _ => ret tt end c2)))).
    { destruct (jb_qmin j); [exact I2|now apply qmin_idx]. }
    revert I3. set (r := match jb_qmin j with None => update_q_min _ | Some _ => ret tt end c2). intros I3.
    destruct r as [[u|e] c3]; cbn [snd] in I3; [|exact I3].
    destruct (jb_qmax j); [exact I3|now apply qmax_idx].
  - pose proof (self_bind m c _ _ E) as Hs.
    destruct (exclude_set m (sc_excl_raw s) []) as [ex|e] eqn:Ex.
    + destruct (generate_collision_pairs m (listed m (sc_bodies s)) ex) as [ps|e] eqn:Eg.
      * rewrite Hs. cbn. unfold idx_inv. cbn. discriminate.
      * assert (HU : update_model m c = update_model_self m c) by (unfold update_model, mbind, read; now rewrite E).
        rewrite HU. unfold update_model_self, mseq, mbind, seta, read, lift, ret, self_of, upd_self. cbn. rewrite E. cbn.
        unfold idx_inv in Hi. rewrite E in Hi.
        destruct (sc_bodies s) eqn:Eb; cbn; rewrite ?E; cbn; rewrite ?Ex; cbn; rewrite ?E; cbn; rewrite ?Eb;
        cbn [listed] in Eg; rewrite ?Eg; unfold idx_inv; cbn; exact Hi.
    + assert (HU : update_model m c = update_model_self m c) by (unfold update_model, mbind, read; now rewrite E).
      rewrite HU. unfold update_model_self, mseq, mbind, seta, read, lift, ret, self_of, upd_self. cbn. rewrite E. cbn.
      unfold idx_inv in Hi. rewrite E in Hi.
      destruct (sc_bodies s) eqn:Eb; cbn; rewrite ?E; cbn; rewrite ?Ex; cbn; unfold idx_inv; cbn; rewrite ?E; exact Hi.
  - assert (HU : update_model m c = update_model_equality m c) by (unfold update_model, mbind, read; now rewrite E).
    rewrite HU. unfold update_model_equality, mseq, mbind, seta, lift. cbn.
    destruct (if Nat.ltb _ _ then _ else _); unfold idx_inv; cbn; rewrite E; auto.
Qed.

Lemma idx_inv_new c : constructed c -> idx_inv (c_at c).
Proof.
  intros H. destruct H as [? ? ? ? ? ? ? H|? ? ? ? ? ? ? ? ? H|? ? ? ? ? ? ? ? ? H|? ? ? ? ? ? ? H|? ? ? ? ? ? ? ? ? H|? ? ? ? ? ? ? ? ? ? ? H|? ? ? ? ? ? ? ? H|? ? ? ? ? ? ? ? ? H|? ? ? ? ? ? ? ? H|? ? ? ? ? H|? ? ? ? ? ? ? ? H].
  - destruct (BindFacts2.com_inv_new _ _ _ _ _ _ _ H) as (_ & _ & ? & ? & ? & E & _). unfold idx_inv. rewrite E. auto.
  - destruct (BindFacts2.pos_inv_new _ _ _ _ _ _ _ _ _ H) as (_ & _ & ? & ? & ? & ? & E & _). unfold idx_inv. rewrite E. auto.
  - destruct (BindFacts2.frame_inv_new _ _ _ _ _ _ _ _ _ H) as (_ & _ & ? & ? & ? & ? & E). unfold idx_inv. rewrite E. auto.
  - destruct (jt_new _ _ _ _ _ _ _ H) as (_ & D & _). unfold idx_inv. rewrite D. congruence.
  - unfold new_custom_task in H. destruct (init_task _ _ _ _ _ _ _) as [a|] eqn:E; cbn in H; [|discriminate]. injection H as <-.
    destruct (BindFacts2.init_task_mask _ _ _ _ _ _ _ _ E) as (_ & _ & Ee & _). unfold idx_inv. cbn. rewrite Ee. auto.
  - destruct (BindFacts2.pbar_inv_new _ _ _ _ _ _ _ _ _ _ _ H) as (lmt & _ & _ & _ & ? & ? & ? & E & _). unfold idx_inv. rewrite E. auto.
  - destruct (jb_new _ _ _ _ _ _ _ _ H) as (_ & D & _). unfold idx_inv. rewrite D. congruence.
  - unfold new_self_collision, init_barrier in H. destruct (init_component _ _ _ _ _) as [a|] eqn:E; cbn in H; [|discriminate]. injection H as <-.
    destruct (init_comp_mask _ _ _ _ _ _ E) as (_ & _ & _ & _ & D & _). unfold idx_inv. cbn. rewrite D. congruence.
  - unfold new_custom_barrier, init_barrier in H. destruct (init_component _ _ _ _ _) as [a|] eqn:E; cbn in H; [|discriminate]. injection H as <-.
    destruct (init_comp_mask _ _ _ _ _ _ E) as (Ee & _). unfold idx_inv. cbn. rewrite Ee. auto.
  - unfold new_model_equality in H. destruct (init_component _ _ _ _ _) as [a|] eqn:E; cbn in H; [|discriminate]. injection H as <-.
    destruct (init_comp_mask _ _ _ _ _ _ E) as (Ee & _). unfold idx_inv. cbn. rewrite Ee. auto.
  - unfold new_custom_constraint in H. destruct (init_component _ _ _ _ _) as [a|] eqn:E; cbn in H; [|discriminate]. injection H as <-.
    destruct (init_comp_mask _ _ _ _ _ _ E) as (Ee & _). unfold idx_inv. cbn. rewrite Ee. auto.
Qed.

Lemma gain_wf t c : wf_tensor t -> wf_core (c_at c) -> wf_core (c_at (snd (update_gain t c))).
Proof.
  intros Ht Hc. unfold update_gain. destruct (Nat.ltb 1 (ndim t)); [exact Hc|]. destruct Hc as [_ Hc]. split; [exact Ht|exact Hc].
Qed.
Lemma cost_wf t c : wf_tensor t -> wf_core (c_at c) -> wf_core (c_at (snd (update_cost t c))).
Proof.
  intros Ht Hc. unfold update_cost, mbind, read. destruct (a_ext (c_at c)) eqn:E; try exact Hc.
  destruct (Nat.ltb 2 (ndim t)); [exact Hc|]. destruct Hc as [Hg _]. split; [exact Hg|exact Ht].
Qed.
Lemma ignore_keeps A (m : M A) : keeps m -> keeps (ignore m).
Proof. intros H. unfold ignore. apply keeps_bind; [exact H|]. intros. apply keeps_ret. Qed.
Lemma wf_core_after o c : wf_op o -> wf_core (c_at c) -> wf_core (c_at (after o c)).
Proof.
  intros Ho Hc. unfold after. destruct o; cbn [run_cop wf_op] in *; try (now apply gain_wf); try (now apply cost_wf); try contradiction;
  (eapply wf_core_eq; [|exact Hc]).
  - apply keeps_update_model.
  - apply keeps_com.
  - apply keeps_pos.
  - apply keeps_frame.
  - apply keeps_q.
  - apply keeps_pmin.
  - apply keeps_pmax.
  - apply keeps_qmin.
  - apply keeps_qmax.
  - apply ignore_keeps, keeps_mask.
  - apply ignore_keeps, keeps_mask_idxs.
  - apply ignore_keeps, keeps_jax.
Qed.

(** The limits and targets are known as soon as the dimension is. *)
Lemma jax_pure_err a e : wf_core a -> idx_inv a -> jax_pure a = Err e -> e = ValueError.
Proof.
  intros [Hg Hc] Hi. unfold jax_pure. destruct (a_model a) eqn:Em; [|congruence].
  destruct (a_dim a =? -1)%Z eqn:Ed; [congruence|]. unfold build_pure, dim. rewrite Ed, Em. cbn.
  pose proof Ed as Ed'. apply Z.eqb_neq in Ed'.
  destruct (vector_gain a) as [g|eg] eqn:Eg; cbn.
  2: { intros H. assert (e = eg) by congruence. subst. eapply vector_gain_err; eauto. }
  destruct (forced a) as [a'|ef] eqn:F; cbn.
  2: { intros H. assert (e = ef) by congruence. subst ef. unfold forced in F. destruct (a_mask a); [discriminate|]. rewrite Ed in F.
       unfold get_default_mask, dim in F. rewrite Ed in F. cbn in F. unfold zsize in F. destruct (a_dim a <? 0)%Z; cbn in F; congruence. }
  rewrite (build_ext_forced _ _ F). destruct (build_ext a) as [x|ex] eqn:B; cbn; [discriminate|].
  intros H. assert (e = ex) by congruence. subst ex. clear H. unfold build_ext in B. specialize (Hi Ed'). destruct (a_ext a) as [c lm k|s k|act h s k] eqn:E.
  - destruct (matrix_cost a) as [W|ew] eqn:Ew; cbn in B.
    + destruct k as [| | |j|]; cbn in B; try discriminate. destruct (jt_target j); cbn in B; [|congruence].
      destruct (jt_qidx j); cbn in B; [discriminate|contradiction].
    + unfold matrix_cost in Ew. rewrite Ed, E in Ew. apply cost_matrix_err in Ew; [congruence|exact Hc].
  - destruct k as [p|j|sc|]; cbn in B; try discriminate.
    + destruct (ob_id (pb_obj p) =? -1)%Z; cbn in B; congruence.
    + destruct (jb_qmin j); cbn in B; [|congruence]. destruct (jb_qmax j); cbn in B; [|congruence].
      destruct (jb_qidx j); cbn in B; [discriminate|contradiction].
    + unfold d_min_vec, dim in B. rewrite Ed in B. cbn in B. unfold zsize in B. destruct (a_dim a <? 0)%Z; cbn in B; [congruence|].
      destruct (sc_pairs sc); cbn in B; [discriminate|contradiction].
  - destruct (soft_constraint_cost a) as [W|ew] eqn:Ew; cbn in B; [destruct k; discriminate|].
    unfold soft_constraint_cost, dim in Ew. rewrite E, Ed in Ew. destruct s as [t|]; cbn in Ew.
    + apply cost_matrix_err in Ew; [congruence|exact Hc].
    + unfold zsize in Ew. destruct (a_dim a <? 0)%Z; cbn in Ew; congruence.
Qed.

Lemma api_error c0 os e : constructed c0 -> wf_core (c_at c0) -> Forall wf_op os ->
  fst (jax_component (history os c0)) = Err e -> e = ValueError.
Proof.
  intros H0 Hw Ho. assert (HI : Inv (history os c0)) by (apply reachable_Inv; exists c0, os; auto).
  rewrite (jax_value _ HI). apply jax_pure_err.
  - clear HI. revert Hw. assert (G : forall c, wf_core (c_at c) -> wf_core (c_at (history os c))); [|auto].
    induction Ho as [|o os Ha _ IH]; intros c Hc; [exact Hc|]. cbn. apply IH. now apply wf_core_after.
  - apply api_history.
    + eapply Forall_impl; [|exact Ho]. intros [] H; try exact I. destruct H.
    + now apply idx_inv_new.
    + apply idx_inv_step.
    + intros. now apply idx_inv_bind.
Qed.
