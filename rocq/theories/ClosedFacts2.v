(** Lemmas behind C94: one turn of the loop. *)
From Verif Require Import Base Lin LinFacts Mjx Typing Component Problem SpecComponent SpecJoint SpecHistory SpecTyping SpecCollision SpecTree SpecShape SpecContact SpecValue SpecProblem SpecQP SpecFit SpecTrace SpecSetup.
From Verif Require Import ComponentFacts ComponentFacts2 ApiSteps JointFacts BindFacts BindFacts2 BindFacts3 CoreFacts ProblemFacts CompThms BindThms ProbThms ShareFacts FitFacts FitFacts3 SetupFacts SetupFacts2 SetupFacts3 SetupFacts4 Conf JaxComponents LocalIK SpecMotion SpecLoop SpecSolve SpecClosed MotionFacts MotionFacts2 LoopFacts QPFacts QPThms QPThms4 SolveFacts SolveThms DescentThms TraceFacts ClosedFacts.
Open Scope R_scope.
#[local] Arguments update_model : simpl never.
#[local] Arguments jax_component : simpl never.
#[local] Arguments build_component : simpl never.

(** Velocity limits around zero. *)
Definition bracket (p : prob) : Prop := Forall (fun x => x <= 0) (p_vmin p) /\ Forall (fun x => 0 <= x) (p_vmax p).
Lemma limit_entries P m t v : limit_vector m t = Ok v -> Forall P (t_data t) -> Forall P v.
Proof.
  unfold limit_vector. destruct (ndim t) as [|[|]]; try discriminate.
  - unfold scalar_of. destruct (t_data t) as [|x [|]]; cbn; try discriminate. intros H F. injection H as <-. apply Forall_inv in F. unfold vconst. induction (m_nv m); cbn; auto.
  - destruct (t_shape t) as [|k []]; try discriminate. destruct (Nat.eqb k (m_nv m)); intros H F; [|discriminate]. now injection H as <-.
Qed.
Lemma bracket_run os : Forall tuning_step os -> Forall keeps_limits os -> forall w, Forall bracket (w_probs w) -> Forall bracket (w_probs (run os w)).
Proof.
  induction os as [|o os IH]; intros Ht Hk w H; [exact H|]. cbn. apply IH; [exact (Forall_inv_tail Ht)|exact (Forall_inv_tail Hk)|].
  apply Forall_inv in Ht, Hk. destruct o; cbn [step tuning_step keeps_limits] in *; unfold component, task, barrier; rewrite ?lookup_world; try contradiction; try exact H.
  - destruct (nth_error (w_comps w) ci) as [c|]; [|exact H]. destruct (run_cop o c) as [r c']. exact H.
  - destruct (nth_error (w_probs w) pi) as [p|] eqn:E; [|exact H]. unfold update_v_min. destruct (limit_vector _ t) as [v|] eqn:E2; [|exact H]. cbn [bind snd]. unfold set_prob. cbn [w_probs].
    apply Forall_replace; [|exact H]. rewrite Forall_forall in H. apply nth_error_In in E. destruct (H p E) as [H1 H2]. split; [|exact H2]. cbn. eapply limit_entries; eassumption.
  - destruct (nth_error (w_probs w) pi) as [p|] eqn:E; [|exact H]. unfold update_v_max. destruct (limit_vector _ t) as [v|] eqn:E2; [|exact H]. cbn [bind snd]. unfold set_prob. cbn [w_probs].
    apply Forall_replace; [|exact H]. rewrite Forall_forall in H. apply nth_error_In in E. destruct (H p E) as [H1 H2]. split; [exact H1|]. cbn. eapply limit_entries; eassumption.
  - unfold compile. destruct (nth_error (w_probs w) pi) as [p|]; [|exact H]. destruct (compile_all _ _) as [[js|e] cs]; exact H.
Qed.
Lemma loop_brackets m lo hi cs os pd : sound_model m -> wf_tensor lo -> wf_tensor hi -> Forall constructed cs -> Forall (fun c => wf_arrays (c_at c)) cs ->
  limit_fits m lo -> limit_fits m hi -> NoDup (map nm cs) -> Forall (fun c => exists d, suits m c d) cs -> below_zero lo -> above_zero hi ->
  Forall steering os -> Forall keeps_limits os -> compiled_by (setup m lo hi cs ++ os) 0 pd ->
  Forall (fun x => x <= 0) (jd_vmin pd) /\ Forall (fun x => 0 <= x) (jd_vmax pd).
Proof.
  intros Hm Wl Wh Hc Hw Fl Fh Nd Hs Hlo Hhi Hst Hk Hpd.
  assert (Ht : Forall tuning_step os) by (eapply Forall_impl; [|exact Hst]; intros o [X _]; exact X).
  destruct (setup_tuned m lo hi cs os Hm Wl Wh Hc Hw Fl Fh Nd Hs Ht) as (p & Ep & _).
  assert (Hb : Forall (bodies_known m) cs) by (eapply Forall_impl; [|exact Hs]; apply suits_known).
  destruct (proj2 (setup_iff m lo hi cs Hm Wl Wh Hc Hw Hb)) as [R _]; [auto|].
  destruct (setup_runs m lo hi cs Wl Wh) as [S1 S2]. destruct (S2 R) as (vl & vh & E1 & E2 & E).
  set (w0 := mkW (map (bound m) cs) [mkP m vl vh (combine (map nm cs) (seq 0 (List.length cs)))]) in *.
  assert (EW : state (setup m lo hi cs ++ os) = run os w0).
  { unfold state, run. rewrite fold_left_app. unfold state, run in E. now rewrite E. }
  assert (B : Forall bracket (w_probs (run os w0))).
  { apply bracket_run; auto. repeat constructor; cbn; eapply limit_entries; eassumption. }
  assert (Hl : Forall legal (setup m lo hi cs ++ os)) by (apply Forall_app; split; [now apply setup_legal|now apply tuned_ops]).
  destruct (proj1 (proj1 (compile_spec _ 0 p Hl Ep) pd) Hpd) as (_ & -> & -> & _).
  rewrite EW in Ep. apply nth_error_In in Ep. rewrite Forall_forall in B. exact (B p Ep).
Qed.

(** Compiled joint barriers. *)
Lemma joint_dims_facts m c j s jb : wf_joints m -> joint_dims m (c_at c) -> published c j -> a_ext (c_at c) = XBarrier s (BJoint jb) -> j_model j = m /\ jb_facts (jb_final jb) j.
Proof.
  intros Hw Hj (_ & P2 & P3 & P4 & _ & P6 & P7) E. unfold joint_dims in Hj. rewrite E in Hj. destruct Hj as (D & Q & Mo & F & Ix).
  assert (m = j_model j) by congruence; subst m. split; [reflexivity|].
  inversion P7 as [? ? ? ? X M|? ? ? ? ? X M|? ? ? ? ? X M|? ? ? ? ? ? X M|? ? ? ? X M|? ? ? ? ? ? X M|? ? ? ? ? X|? ? ? ? ? ? ? X M|? ? X|? ? ? ? X M|? ? ? ? ? X M]; rewrite E in X; try discriminate X.
  injection X as X1 X2. subst. cbn [jb_final jb_qidx] in *.
  split; [exact Hw|]. split; [exact F|]. split; [rewrite P2, D, Nat2Z.inj_mul; reflexivity|].
  split; [rewrite mask_idxs_fst in P6; unfold indices in Ix; congruence|]. split; [eapply vector_gain_length; eassumption|]. exists sdg, lo, hi. rewrite <- (Q _ eq_refl). auto.
Qed.
Lemma vec_tvec n t : vec_of_length n t -> t = tvec (t_data t) /\ List.length (t_data t) = n.
Proof. intros (v & -> & L). split; [reflexivity|exact L]. Qed.
Lemma gain_entries P a d g : vector_gain a = Ok g -> a_dim a = Z.of_nat d -> Forall P (t_data (a_gain a)) -> Forall P g.
Proof.
  unfold vector_gain, dim. intros H E F. rewrite E in H. replace (Z.of_nat d =? -1)%Z with false in H by (symmetry; apply Z.eqb_neq; lia).
  destruct (ndim (a_gain a)) as [|[|k]]; cbn [bind] in H; [| |discriminate].
  - unfold zsize in H. destruct (Z.of_nat d <? 0)%Z; cbn [bind] in H; [discriminate|]. unfold scalar_of in H. destruct (t_data (a_gain a)) as [|x []]; cbn [bind] in H; try discriminate. injection H as <-. apply Forall_inv in F. unfold vconst. clear E. induction (Z.to_nat (Z.of_nat d)); cbn; auto.
  - destruct (negb _) in H; [discriminate|]. now injection H as <-.
Qed.
Lemma bar_made m c e s jb dd P : sound_model m -> suits m c dd -> fst (update_model m c) = Ok tt -> plain m c -> made_of m True c e -> a_ext (c_at c) = XBarrier s (BJoint jb) ->
  j_model (snd e) = m /\ jb_facts (jb_final jb) (snd e) /\ has_limits (snd e) (lower_limits m jb) (upper_limits m jb) /\
  List.length (lower_limits m jb) = List.length (selected m (jb_final jb)) /\ List.length (upper_limits m jb) = List.length (selected m (jb_final jb)) /\
  (Forall P (t_data (a_gain (c_at c))) -> Forall P (j_gain (snd e))) /\ j_gain_fn (snd e) = a_gain_fn (c_at c).
Proof.
  intros Hm Hs Ok_ Hp (_ & _ & c' & Pb & Pl & Jd & Kb & Eg & Ef & _) E. pose proof Hm as ((Wj & _) & _).
  unfold suits in Hs. rewrite E in Hs. destruct Hs as (_ & F & _ & N). destruct (joint_barrier_bind m c s jb Wj E) as [_ B2]. destruct (B2 F) as (_ & _ & _ & _ & _ & _ & _ & X). specialize (X Ok_). fold (bound m c) in X.
  specialize (Kb I). unfold keeps_bars in Kb. rewrite X in Kb. destruct Kb as [s' E'].
  assert (Ll : List.length (lower_limits m jb) = List.length (selected m (jb_final jb)) /\ forall t, jb_qmin jb = Some t -> t = tvec (t_data t)).
  { unfold plain in Hp. rewrite E in Hp. unfold lower_limits. destruct (jb_qmin jb) as [t|].
    - destruct (vec_tvec _ t (Hp t (or_introl eq_refl))) as [H1 H2]. split; [exact H2|]. intros t' Ht. now injection Ht as <-.
    - split; [|discriminate]. rewrite map_length. symmetry. apply N. now left. }
  assert (Lu : List.length (upper_limits m jb) = List.length (selected m (jb_final jb)) /\ forall t, jb_qmax jb = Some t -> t = tvec (t_data t)).
  { unfold plain in Hp. rewrite E in Hp. unfold upper_limits. destruct (jb_qmax jb) as [t|].
    - destruct (vec_tvec _ t (Hp t (or_intror eq_refl))) as [H1 H2]. split; [exact H2|]. intros t' Ht. now injection Ht as <-.
    - split; [|discriminate]. rewrite map_length. symmetry. apply N. now right. }
  destruct (joint_dims_facts m c' (snd e) s' _ Wj Jd Pb E') as [M J]. cbn [jb_final] in J. split; [exact M|]. split; [exact J|]. destruct Ll as [Ll1 Ll2], Lu as [Lu1 Lu2].
  pose proof Pb as (_ & P2 & _ & P4 & P5 & _ & P7). split; [|split; [exact Ll1|split; [exact Lu1|split]]].
  - inversion P7 as [? ? ? ? Y _|? ? ? ? ? Y _|? ? ? ? ? Y _|? ? ? ? ? ? Y _|? ? ? ? Y _|? ? ? ? ? ? Y _|? ? ? ? ? Y Y'|? ? ? ? ? ? ? Y _|? ? Y|? ? ? ? Y _|? ? ? ? ? Y _]; rewrite E' in Y; try discriminate Y.
    injection Y as Y1 Y0 Y2 Y3 Y4. exists sdg, q. rewrite <- Y'. unfold lower_limits, upper_limits. destruct (jb_qmin jb) as [t1|], (jb_qmax jb) as [t2|]; injection Y2 as <-; injection Y3 as <-; rewrite <- ?(Ll2 _ eq_refl), <- ?(Lu2 _ eq_refl); reflexivity.
  - intros G. rewrite <- Eg in G. unfold joint_dims in Jd. rewrite E' in Jd. destruct Jd as [Jd _]. eapply gain_entries; eassumption.
  - congruence.
Qed.
