(** Lemmas behind C92. *)
From Verif Require Import Base Lin LinFacts Mjx Typing Component Problem SpecComponent SpecJoint SpecHistory SpecTyping SpecCollision SpecTree SpecShape SpecContact SpecValue SpecProblem SpecQP SpecSetup.
From Verif Require Import ComponentFacts ComponentFacts2 ApiSteps JointFacts BindFacts BindFacts2 BindFacts3 CoreFacts CollideFacts3 ProblemFacts CompThms CompThms2 BindThms BindThms2 ProbThms ShareFacts FitFacts FitFacts3.
Open Scope nat_scope.
#[local] Arguments update_model : simpl never.
#[local] Arguments jax_component : simpl never.

Lemma gain_exists a d : a_dim a = Z.of_nat d -> wf_tensor (a_gain a) -> ((exists v, vector_gain a = Ok v) <-> gain_fits (a_gain a) d).
Proof.
  intros Hd Hw. split.
  - intros [v Hv]. apply (vector_gain_full _ _ Hd Hw) in Hv. destruct Hv as [(x & -> & _)|[H _]]; [now left|now right].
  - intros [H|H].
    + destruct (wf_scalar _ Hw H) as [x E]. eexists. apply (vector_gain_full _ _ Hd Hw). left. exists x. split; [|reflexivity]. destruct (a_gain a); cbn in *. now subst.
    + eexists. apply (vector_gain_full _ _ Hd Hw). right. split; [exact H|reflexivity].
Qed.
Lemma cost_exists t d : wf_tensor t -> ((exists W, cost_matrix (Z.of_nat d) t = Ok W) <-> cost_fits t d).
Proof.
  intros Hw. split.
  - intros [W HW]. apply cost_matrix_iff in HW; [|exact Hw]. destruct HW as [_ [(x & -> & _)|[[H _]|[H _]]]]; [now left|right; now left|right; now right].
  - unfold cost_matrix, ndim. intros [H|[H|H]]; rewrite H; cbn [List.length].
    + rewrite zsize_nat. cbn. destruct (wf_scalar _ Hw H) as [x ->]. cbn. eauto.
    + rewrite (wf_vector _ _ Hw H), Z.eqb_refl. cbn. eauto.
    + rewrite Z.eqb_refl. cbn. eauto.
Qed.
Lemma forced_ok a d : a_dim a = Z.of_nat d -> exists a', forced a = Ok a'.
Proof. intros H. unfold forced. destruct (a_mask a); [eauto|]. rewrite H, of_nat_neq_m1. unfold get_default_mask, dim. rewrite H, of_nat_neq_m1. cbn. rewrite zsize_nat. cbn. eauto. Qed.

Lemma compiles_iff c d : reachable c -> wf_core (c_at c) -> ((exists j, compiles c j /\ j_dim j = Z.of_nat d) <-> complete c d).
Proof.
  intros Hr [Wg Wx]. split.
  - intros (j & Hj & Ed). apply availability in Hj; [|exact Hr]. destruct Hj as (P1 & P2 & P3 & P4 & P5 & P6 & P7). assert (D : a_dim (c_at c) = Z.of_nat d) by congruence.
    split; [exact D|]. split; [congruence|]. split; [apply (gain_exists _ _ D Wg); eauto|].
    inversion P7 as [? ? ? ? X M|? ? ? ? ? X M|? ? ? ? ? X M|? ? ? ? ? ? X M|? ? ? ? X M|? ? ? ? ? ? X M|? ? ? ? ? X|? ? ? ? ? ? ? X M|? ? X|? ? ? ? X M|? ? ? ? ? X M]; rewrite X in *; cbn.
    1-5: unfold matrix_cost in M; rewrite X, D, of_nat_neq_m1 in M; split; [apply cost_exists; eauto|]; try exact I; split; discriminate.
    + exact M.
    + repeat split; discriminate.
    + discriminate.
    + exact I.
    + destruct soft as [t|]; [|exact I]. unfold soft_constraint_cost, dim in M. rewrite X, D, of_nat_neq_m1 in M. cbn in M. apply cost_exists; eauto.
    + destruct soft as [t|]; [|exact I]. unfold soft_constraint_cost, dim in M. rewrite X, D, of_nat_neq_m1 in M. cbn in M. apply cost_exists; eauto.
  - intros (D & Hm & Hg & Hx). destruct (a_model (c_at c)) as [m|] eqn:Em; [|contradiction]. apply (gain_exists _ _ D Wg) in Hg as [g Hg].
    destruct (forced_ok _ _ D) as [a' Hf].
    assert (HX : exists x, ext_published (c_at c) x).
    { destruct (a_ext (c_at c)) as [cost lm k|s k|act h soft k] eqn:X.
      - destruct Hx as [Hc Hk]. apply cost_exists in Hc as [W HW]; [|exact Wx]. assert (M : matrix_cost (c_at c) = Ok W) by (unfold matrix_cost; now rewrite X, D, of_nat_neq_m1).
        destruct k as [t|o t|o t|[fm t q]|f].
        + eexists; eapply pub_com; eauto.
        + eexists; eapply pub_pos; eauto.
        + eexists; eapply pub_frame; eauto.
        + cbn in Hk. destruct Hk as [H1 H2]. destruct t as [t|]; [|contradiction]. destruct q as [q|]; [|contradiction]. eexists; eapply pub_joint; eauto.
        + eexists; eapply pub_custom_t; eauto.
      - destruct k as [[o lt li lo hi]|[fm lo hi q]|[dm bs er ex ps n]|f]; cbn in Hx.
        + eexists; eapply pub_pbar; eauto.
        + destruct Hx as (H1 & H2 & H3). destruct lo; [|contradiction]. destruct hi; [|contradiction]. destruct q; [|contradiction]. eexists; eapply pub_jbar; eauto.
        + destruct ps; [|contradiction]. eexists; eapply pub_self; eauto. rewrite D. lia.
        + eexists; eapply pub_custom_b; eauto.
      - assert (M : exists W, soft_constraint_cost (c_at c) = Ok W).
        { unfold soft_constraint_cost, dim. rewrite X, D, of_nat_neq_m1. cbn. destruct soft as [t|]; cbn; [apply cost_exists; assumption|]. rewrite zsize_nat. cbn. eauto. }
        destruct M as [W M]. destruct k; eexists; [eapply pub_eq|eapply pub_custom_c]; eauto. }
    destruct HX as [x HX]. exists (mkJ (Z.of_nat d) m g (a_gain_fn (c_at c)) (a_mask_idxs a') x). split; [|reflexivity]. apply availability; [exact Hr|].
    unfold published. cbn. rewrite Em, mask_idxs_fst, Hf. cbn. repeat split; auto; try congruence. rewrite D. lia.
Qed.

Lemma checks_same m ids ex ps ps' : checks_exactly m ids ex ps -> checks_exactly m ids ex ps' -> List.length ps = List.length ps'.
Proof.
  intros [N H] [N' H']. apply Permutation.Permutation_length, Permutation.NoDup_Permutation; auto.
  intros [x y]. now rewrite H, H'.
Qed.
Lemma refers_inj m b x y : wf_names m -> refers m b x -> refers m b y -> x = y.
Proof.
  intros Hw Hx Hy. inversion Hx as [? _|st i H1 _]; subst; inversion Hy as [|? ? H2]; subst; [reflexivity|].
  apply (proj1 (name2id_spec m OBody st x Hw)) in H1 as [H1 _]. apply (proj1 (name2id_spec m OBody st y Hw)) in H2 as [H2 _]. congruence.
Qed.
Lemma refers_all_inj m bs ids ids' : wf_names m -> Forall2 (refers m) bs ids -> Forall2 (refers m) bs ids' -> ids = ids'.
Proof.
  intros Hw H. revert ids'. induction H as [|b x bs l Hb _ IH]; intros ids' H'; inversion H'; subst; [reflexivity|].
  f_equal; [eapply refers_inj; eauto|now apply IH].
Qed.
Lemma refers2_all_inj m er ex ex' : wf_names m -> Forall2 (refers2 m) er ex -> Forall2 (refers2 m) er ex' -> ex = ex'.
Proof.
  intros Hw H. revert ex'. induction H as [|b x bs l Hb _ IH]; intros ex' H'; inversion H' as [|? y ? ? Hy]; subst; [reflexivity|].
  f_equal; [|now apply IH]. destruct Hb as [A B], Hy as [A' B']. destruct x, y. cbn in *. f_equal; eapply refers_inj; eauto.
Qed.
Lemma lists_listed m bs ids : lists_bodies m bs ids -> Forall2 (refers m) (listed m bs) ids.
Proof. destruct bs; cbn; [intros ->; apply refers_all|auto]. Qed.
Lemma lists_inj m bs ids ids' : wf_names m -> lists_bodies m bs ids -> lists_bodies m bs ids' -> ids = ids'.
Proof. intros Hw. destruct bs; cbn; [congruence|apply refers_all_inj; exact Hw]. Qed.

Lemma bound_reachable m c : reachable c -> reachable (snd (update_model m c)).
Proof. intros (c0 & os & H & ->). exists c0, (os ++ [OpModel m]). split; [exact H|]. unfold history. now rewrite fold_left_app. Qed.
Lemma bound_core m c : wf_core (c_at c) -> wf_core (c_at (snd (update_model m c))).
Proof. intros H. exact (wf_core_after (OpModel m) c I H). Qed.

Lemma named_id m o : wf_names m -> (named m o <-> name2id m (ob_type o) (ob_name o) <> (-1)%Z).
Proof.
  intros Hw. unfold named. split.
  - intros [i Hi]. apply name2id_spec in Hi; [|exact Hw]. destruct Hi; congruence.
  - intros H. eexists. apply name2id_spec; [exact Hw|]. split; [reflexivity|exact H].
Qed.
Lemma usable_iff m c d : reachable c -> wf_core (c_at c) -> sound_model m -> bodies_known m c -> (usable m c d <-> suits m c d).
Proof.
  intros Hr Hw Hm Hb. unfold usable. rewrite (compiles_iff _ d (bound_reachable m c Hr) (bound_core m c Hw)).
  assert (Hm' := Hm). destruct Hm as ((Wj & _) & Wb & _ & Wn & _ & We & _).
  unfold suits, complete, bodies_known in *.
  destruct (a_ext (c_at c)) as [cost lm k|sdg k|act h soft k] eqn:E; [destruct k as [t|o t|o t|j|f]|destruct k as [p|j|s|f]|destruct k as [|f]].
  - assert (HU : update_model m c = seta (fun a => set_a_model a m) c) by (unfold update_model, mbind, read; now rewrite E).
    rewrite HU. cbn. rewrite E. intuition congruence.
  - assert (Ho : object_of (c_at c) = Some o) by (unfold object_of; now rewrite E).
    rewrite (obj_bind _ _ _ Ho). rewrite (named_id m o Wn). destruct (Z.eqb_spec (name2id m (ob_type o) (ob_name o)) (-1)) as [N|N].
    + cbn. split; [intros [? _]; discriminate|tauto].
    + unfold set_obj_id. rewrite E. cbn. intuition congruence.
  - assert (Ho : object_of (c_at c) = Some o) by (unfold object_of; now rewrite E).
    rewrite (obj_bind _ _ _ Ho). rewrite (named_id m o Wn). destruct (Z.eqb_spec (name2id m (ob_type o) (ob_name o)) (-1)) as [N|N].
    + cbn. split; [intros [? _]; discriminate|tauto].
    + unfold set_obj_id. rewrite E. cbn. intuition congruence.
  - destruct (joint_task_bind m c cost lm j Wj E) as [B1 B2]. destruct (mask_fits_dec m (jt_final j)) as [F|F].
    + rewrite (task_mask_accepted m c cost lm j Wj E F). destruct (B2 F) as (_ & D & Mo & _ & _ & G & X).
      rewrite D, Mo, G, X. cbn. split.
      * intros (A1 & A2 & _ & A4 & A5 & _). apply Nat2Z.inj in A2. subst d. tauto.
      * intros (A1 & A2 & _ & -> & A4). repeat split; auto; try discriminate. destruct (jt_target j); discriminate.
    + destruct (B1 F) as [U _]. rewrite U. split; [intros [? _]; discriminate|tauto].
  - assert (HU : update_model m c = seta (fun a => set_a_model a m) c) by (unfold update_model, mbind, read; now rewrite E).
    rewrite HU. cbn. rewrite E. intuition congruence.
  - assert (Ho : object_of (c_at c) = Some (pb_obj p)) by (unfold object_of; now rewrite E).
    rewrite (obj_bind _ _ _ Ho). rewrite (named_id m _ Wn). destruct (Z.eqb_spec (name2id m (ob_type (pb_obj p)) (ob_name (pb_obj p))) (-1)) as [N|N].
    + cbn. split; [intros [? _]; discriminate|tauto].
    + unfold set_obj_id. rewrite E. cbn. intuition congruence.
  - destruct (joint_barrier_bind m c sdg j Wj E) as [B1 B2]. destruct (mask_fits_dec m (jb_final j)) as [F|F].
    + destruct (B2 F) as (D & Mo & _ & _ & G & U & _ & X). rewrite D, Mo, G. split.
      * intros (A1 & A2 & _ & A4 & _). apply U in A1 as [L1 L2]. assert (A3 : 2 * List.length (selected m (jb_final j)) = d) by lia. rewrite A3. repeat split; auto.
        intros [N|N]; [rewrite N in L1|rewrite N in L2]; congruence.
      * intros (A4 & _ & A2 & A3). assert (U' : fst (update_model m c) = Ok tt).
        { apply U. destruct (jb_qmin j), (jb_qmax j); split; try exact I; symmetry; apply A3; auto. }
        rewrite (X U'). cbn. rewrite A2. repeat split; try discriminate; auto; [rewrite Nat2Z.inj_mul; reflexivity|now rewrite <- A2|destruct (jb_qmin j); discriminate|destruct (jb_qmax j); discriminate].
    + destruct (B1 F) as [U _]. rewrite U. split; [intros [? _]; discriminate|tauto].
  - destruct Hb as [[ids H1] [ex H2]]. assert (B := self_bind m c sdg s E).
    destruct (generated m _ _ _ _ Wb Wn (lists_listed _ _ _ H1) H2) as (exs & ps & E1 & E2 & C). rewrite E1, E2 in B. cbn zeta in B. rewrite B. cbn. split.
    + intros (_ & A1 & _ & A3 & _). split; [exact A3|]. exists ids, ex, ps. split; [exact H1|]. split; [exact H2|]. split; [exact C|]. revert A1. destruct (sc_n s =? -1)%Z; intros A1; [lia|exact A1].
    + intros (A3 & ids' & ex' & ps' & A4 & A5 & A6 & A7). rewrite (lists_inj _ _ _ _ Wn A4 H1), (refers2_all_inj _ _ _ _ Wn A5 H2) in A6.
      repeat split; auto; try discriminate. revert A7. destruct (sc_n s =? -1)%Z; intros A7; [|exact A7]. rewrite A7. f_equal. eapply checks_same; eauto.
  - assert (HU : update_model m c = seta (fun a => set_a_model a m) c) by (unfold update_model, mbind, read; now rewrite E).
    rewrite HU. cbn. rewrite E. intuition congruence.
  - destruct (equality_bind m c act h soft E We) as [B1 B2]. destruct (eq_supported_dec (m_eq_type m)) as [F|F].
    + rewrite (B1 F). cbn -[eq_rows]. fold (eq_total m). rewrite E. split.
      * intros (_ & A1 & _ & A3 & A4). apply Nat2Z.inj in A1. subst d. auto.
      * intros (A1 & A2 & _ & ->). repeat split; auto. discriminate.
    + rewrite (B2 F). split; [intros [? _]; discriminate|tauto].
  - assert (HU : update_model m c = seta (fun a => set_a_model a m) c) by (unfold update_model, mbind, read; now rewrite E).
    rewrite HU. cbn. rewrite E. intuition congruence.
Qed.
