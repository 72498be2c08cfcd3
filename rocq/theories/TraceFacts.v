(** Lemmas behind C91. *)
From Verif Require Import Base Lin LinFacts Mjx Typing Component Problem SpecComponent SpecJoint SpecHistory SpecTyping SpecCollision SpecProblem SpecSettings SpecQP JaxTree SpecTrace.
From Verif Require Import ComponentFacts ComponentFacts2 ApiSteps JointFacts BindFacts BindFacts2 BindFacts3 CoreFacts CollideFacts3 ProblemFacts CompThms CompThms2 BindThms2 ProbThms ShareFacts JitFacts FitFacts FitFacts3 SettingThms.
Open Scope nat_scope.
#[local] Arguments update_model : simpl never.
#[local] Arguments jax_component : simpl never.

Definition indices (a : attrs) : res (list Z) := do a' <- forced a; Ok (a_mask_idxs a').
Lemma indices_forced a a' : forced a = Ok a' -> indices a' = indices a.
Proof.
  intros F. unfold indices. rewrite F. cbn [bind]. assert (G : forced a' = Ok a').
  { unfold forced in *. destruct (a_mask a) as [k|] eqn:E; [injection F as <-; now rewrite E|].
    destruct (a_dim a =? -1)%Z; [discriminate|]. destruct (get_default_mask a) as [[x y]|]; cbn in F; [|discriminate]. injection F as <-. reflexivity. }
  rewrite G. reflexivity.
Qed.
(** What tuning leaves alone. *)
Definition bare_task (k : tkind) : tkind :=
  match k with
  | TCom _ => TCom (tvec []) | TPos o _ => TPos o (tvec []) | TFrame o _ => TFrame o (tvec [])
  | TJoint j => TJoint (mkJT (jt_final j) None (jt_qidx j)) | TCustom f => TCustom f
  end.
Definition bare_barrier (k : bkind) : bkind :=
  match k with
  | BPos p => BPos (mkPB (pb_obj p) (pb_lt p) (pb_lt_idxs p) (tvec []) (tvec []))
  | BJoint j => BJoint (mkJB (jb_final j) None None (jb_qidx j))
  | BSelf k => BSelf (mkSC 0%R (sc_bodies k) (sc_excl_raw k) (sc_excl k) (sc_pairs k) (sc_n k))
  | BCustom f => BCustom f
  end.
Definition bare (e : ext) : ext :=
  match e with
  | XTask _ lm k => XTask (tvec []) lm (bare_task k)
  | XBarrier _ k => XBarrier 0%R (bare_barrier k)
  | XConstraint _ h s k => XConstraint true h s k
  end.
Definition kin (a a' : attrs) : Prop :=
  a_model a' = a_model a /\ a_dim a' = a_dim a /\ a_gain_fn a' = a_gain_fn a /\ indices a' = indices a /\ bare (a_ext a') = bare (a_ext a).
Lemma kin_refl a : kin a a. Proof. repeat split. Qed.
Lemma kin_trans a b c : kin a b -> kin b c -> kin a c.
Proof. intros (A1 & A2 & A3 & A4 & A5) (B1 & B2 & B3 & B4 & B5). repeat split; congruence. Qed.
Lemma indices_depend a a' : a_mask a' = a_mask a -> a_dim a' = a_dim a -> a_mask_idxs a' = a_mask_idxs a -> indices a' = indices a.
Proof.
  intros H1 H2 H3. unfold indices, forced, get_default_mask, dim. rewrite H1, H2. destruct (a_mask a); cbn [bind]; [congruence|].
  destruct (a_dim a =? -1)%Z; cbn [bind]; [reflexivity|]. destruct (zsize (a_dim a)); reflexivity.
Qed.
Lemma kin_ext a e : bare e = bare (a_ext a) -> kin a (set_a_ext a e).
Proof. intros H. repeat split; try exact H. now apply indices_depend. Qed.
Lemma kin_step a a' : astep a a' -> kin a a'.
Proof.
  intros H. destruct H; try (apply kin_ext; rewrite H; reflexivity).
  - repeat split. now apply indices_depend.
  - destruct (forced_other _ _ H) as (h1 & h2 & h3 & h4 & h5 & h6). repeat split; try assumption; [now apply indices_forced|now rewrite h6].
Qed.
Lemma kin_steps a a' : asteps a a' -> kin a a'.
Proof. induction 1; [now apply kin_step|apply kin_refl|eapply kin_trans; eassumption]. Qed.
Lemma kin_tuning o c : tuning o -> kin (c_at c) (c_at (after o c)).
Proof.
  intros [o' Hn _|b|x|x].
  - apply kin_steps, api_steps; [destruct o'; cbn in *; tauto|intros m ->; exact Hn].
  - unfold after. cbn. unfold assign_active. destruct (a_ext (c_at c)) eqn:E; try apply kin_refl. apply kin_ext. now rewrite E.
  - unfold after. cbn. unfold assign_safe_displacement_gain. destruct (a_ext (c_at c)) eqn:E; try apply kin_refl. apply kin_ext. now rewrite E.
  - unfold after. cbn. unfold assign_d_min. destruct (a_ext (c_at c)) as [|s [| |k|]|] eqn:E; try apply kin_refl. apply kin_ext. now rewrite E.
Qed.
Lemma wf_tuning o c : tuning o -> wf_core (c_at c) -> wf_core (c_at (after o c)).
Proof.
  intros [o' Hn Hw|b|x|x] H.
  - now apply wf_core_after.
  - unfold after. cbn. unfold assign_active. destruct (a_ext (c_at c)) eqn:E; try exact H. destruct H as [H1 H2]. split; [exact H1|]. rewrite E in H2. exact H2.
  - unfold after. cbn. unfold assign_safe_displacement_gain. destruct (a_ext (c_at c)) eqn:E; try exact H. destruct H as [H1 H2]. split; [exact H1|]. exact I.
  - unfold after. cbn. unfold assign_d_min. destruct (a_ext (c_at c)) as [|s [| |k|]|] eqn:E; try exact H. destruct H as [H1 H2]. split; [exact H1|]. exact I.
Qed.

(** ** Two published components *)
Lemma mat_signature d W W' : is_mat d d W -> is_mat d d W' -> signature (PMat W) = signature (PMat W').
Proof.
  intros [L1 F1] [L2 F2]. cbn [signature]. f_equal. f_equal; [congruence|].
  assert (G : forall M : mat, Forall (fun r => List.length r = d) M -> map (fun r => Z.of_nat (List.length r)) M = repeat (Z.of_nat d) (List.length M)).
  { induction 1 as [|r M E _ IH]; cbn; [reflexivity|]. now rewrite E, IH. }
  rewrite (G W), (G W') by assumption. congruence.
Qed.
Lemma shape_nat (l l' : list nat) : map Z.of_nat l = map Z.of_nat l' <-> l = l'.
Proof.
  split; [|congruence]. revert l'. induction l as [|x l IH]; intros [|y l']; cbn; try discriminate; auto. intros H. injection H as H1 H2.
  apply Nat2Z.inj in H1. f_equal; auto.
Qed.

Definition sf (f : string * (bool * py)) := (fst f, (fst (snd f), if fst (snd f) then snd (snd f) else signature (snd (snd f)))).
Lemma obj_sig k b b' fs fs' : map sf b' = map sf b ->
  (signature (PObj k (b ++ fs)) = signature (PObj k (b' ++ fs')) <-> map sf fs = map sf fs').
Proof.
  intros E. change (PObj k (map sf (b ++ fs)) = PObj k (map sf (b' ++ fs')) <-> map sf fs = map sf fs'). rewrite !map_app, E. split; [|congruence].
  intros H. injection H as H. now apply app_inv_head in H.
Qed.
Lemma arr_sig t t' : signature (PArr t) = signature (PArr t') <-> t_shape t = t_shape t'.
Proof. cbn [signature]. rewrite <- shape_nat. split; [intros H; now injection H|congruence]. Qed.
Lemma some_shape (t t' : tensor) : option_map t_shape (Some t) = option_map t_shape (Some t') <-> t_shape t = t_shape t'.
Proof. cbn. split; [intros H; now injection H|congruence]. Qed.
Lemma cons_sf f f' l l' : map sf (f :: l) = map sf (f' :: l') <-> sf f = sf f' /\ map sf l = map sf l'.
Proof. cbn [map]. split; [intros H; split; [exact (f_equal (hd (sf f)) H)|exact (f_equal (@tl _) H)]|intros [-> ->]; reflexivity]. Qed.
Lemma dyn_sf n v v' : sf (dyn n v) = sf (dyn n v') <-> signature v = signature v'.
Proof. unfold sf, dyn. cbn [fst snd]. split; [intros H; now injection H|congruence]. Qed.
Lemma sta_sf n v : sf (sta n v) = sf (sta n v) <-> True.
Proof. tauto. Qed.
Lemma se3_sig t t' : signature (PObj "SE3" [dyn "wxyz_xyz" (PArr t)]) = signature (PObj "SE3" [dyn "wxyz_xyz" (PArr t')]) <-> t_shape t = t_shape t'.
Proof.
  split; [intros H|intros H; cbn [signature map dyn fst snd]; now rewrite H].
  apply arr_sig. injection H as H. cbn [signature]. now rewrite H.
Qed.
(** [soft_constraint_cost] and [d_min_vec] depend on what tuning leaves alone. *)
Lemma published_shapes c c' j j' : kin (c_at c) (c_at c') -> wf_core (c_at c) -> wf_core (c_at c') -> published c j -> published c' j' ->
  (traced_once (component_object j) (component_object j') <-> same_shapes j j').
Proof.
  intros (K1 & K2 & K3 & K4 & K5) [G W] [G' W'] (P1 & P2 & P3 & P4 & P5 & P6 & P7) (Q1 & Q2 & Q3 & Q4 & Q5 & Q6 & Q7).
  rewrite mask_idxs_fst in P6, Q6. fold (indices (c_at c)) in P6. fold (indices (c_at c')) in Q6.
  assert (E1 : j_dim j' = j_dim j) by congruence. assert (E2 : j_model j' = j_model j) by congruence. assert (E3 : j_gain_fn j' = j_gain_fn j) by congruence.
  assert (E4 : j_mask_idxs j' = j_mask_idxs j) by congruence.
  assert (E5 : List.length (j_gain j') = List.length (j_gain j)).
  { pose proof (vector_gain_dim _ _ P4) as D. pose proof (vector_gain_dim _ _ Q4) as D'. rewrite K2 in D'. rewrite D in D'. lia. }
  assert (EB : map sf (base_fields j') =
               map sf (base_fields j)).
  { unfold base_fields, sf. cbn. now rewrite E1, E2, E3, E4, E5. }
  assert (EW : forall cost lm k W0 cost' lm' k' W1, a_ext (c_at c) = XTask cost lm k -> a_ext (c_at c') = XTask cost' lm' k' ->
    matrix_cost (c_at c) = Ok W0 -> matrix_cost (c_at c') = Ok W1 -> signature (PMat W1) = signature (PMat W0)).
  { intros cost lm k W0 cost' lm' k' W1 X X' M M'. rewrite X in W. rewrite X' in W'.
    pose proof (vector_gain_dim _ _ P4) as D. pose proof (vector_gain_dim _ _ Q4) as D'.
    apply (proj1 (matrix_cost_full _ _ _ _ X W) _ _ D) in M. rewrite K2, D in D'. apply Nat2Z.inj in D'.
    apply (proj1 (matrix_cost_full _ _ _ _ X' W') (List.length (j_gain j))) in M'; [|congruence].
    apply (mat_signature (List.length (j_gain j))); [exact (proj1 M')|exact (proj1 M)]. }
  unfold traced_once, same_shapes, component_object, compiled_target, compiled_lower, compiled_upper.
  assert (ES : bare (a_ext (c_at c')) = bare (a_ext (c_at c)) -> forall a h s k a' h' s' k', a_ext (c_at c) = XConstraint a h s k -> a_ext (c_at c') = XConstraint a' h' s' k' ->
    soft_constraint_cost (c_at c') = soft_constraint_cost (c_at c)).
  { intros B a h s k a' h' s' k' X X'. unfold soft_constraint_cost, dim. rewrite X, X', K2. rewrite X, X' in B. cbn in B. injection B as -> -> ->. reflexivity. }
  specialize (ES K5).
  inversion P7 as [? ? ? ? X M EJ|? ? ? ? ? X M EJ|? ? ? ? ? X M EJ|? ? ? ? ? ? X M EJ|? ? ? ? X M EJ|? ? ? ? ? ? X M EJ|? ? ? ? ? X EJ|? ? ? ? ? ? ? X M EJ|? ? X EJ|? ? ? ? X M EJ|? ? ? ? ? X M EJ];
  inversion Q7 as [? ? ? ? X' M' EJ'|? ? ? ? ? X' M' EJ'|? ? ? ? ? X' M' EJ'|? ? ? ? ? ? X' M' EJ'|? ? ? ? X' M' EJ'|? ? ? ? ? ? X' M' EJ'|? ? ? ? ? X' EJ'|? ? ? ? ? ? ? X' M' EJ'|? ? X' EJ'|? ? ? ? X' M' EJ'|? ? ? ? ? X' M' EJ'];
  rewrite X, X' in K5; cbn in K5; try discriminate K5.
  all: injection K5; intros; subst; cbn [task_fields barrier_fields constraint_fields app obj_fields];
    rewrite (obj_sig _ _ _ _ _ EB), ?cons_sf, ?dyn_sf, ?sta_sf, ?se3_sig, ?arr_sig, ?some_shape.
  all: try (pose proof (EW _ _ _ _ _ _ _ _ X X' M M') as HW; symmetry in HW).
  all: try (pose proof (ES _ _ _ _ _ _ _ _ X X') as HW; rewrite M, M' in HW; injection HW as ->).
  8: assert (HL : t_shape (tvec (repeat dm (Z.to_nat (a_dim (c_at c))))) = t_shape (tvec (repeat dm0 (Z.to_nat (a_dim (c_at c'))))))
       by (cbn; now rewrite !repeat_length, K2).
  all: cbn [option_map]; assert (H0 : map sf [] = map sf []) by reflexivity.
  all: try (assert (H1 : signature (PReal sdg) = signature (PReal sdg0)) by reflexivity).
  all: try (assert (H1 : signature (PBool act) = signature (PBool act0)) by reflexivity).
  all: intuition.
Qed.

(** ** Histories and programs *)
Lemma history_app2 os os' c : history (os ++ os') c = history os' (history os c).
Proof. unfold history. now rewrite fold_left_app. Qed.
Lemma tuned_history os : Forall tuning os -> forall c, kin (c_at c) (c_at (history os c)) /\ (wf_core (c_at c) -> wf_core (c_at (history os c))).
Proof.
  induction 1 as [|o os Ho _ IH]; intros c; [split; [apply kin_refl|auto]|]. cbn. destruct (IH (after o c)) as [K W]. split.
  - eapply kin_trans; [exact (kin_tuning o c Ho)|exact K].
  - intros H. now apply W, wf_tuning.
Qed.
Lemma arrays_core a : wf_arrays a -> wf_core a.
Proof. intros [W1 W2]. split; [exact W1|]. destruct (a_ext a); auto. Qed.
Lemma trace_component c os os' j j' : constructed c -> wf_arrays (c_at c) -> Forall wf_call os -> Forall tuning os' ->
  compiles (history os c) j -> compiles (history (os ++ os') c) j' ->
  (traced_once (component_object j) (component_object j') <-> same_shapes j j').
Proof.
  intros Hc Hw Ho Ht Hj Hj'. apply published_reachable in Hj; [|exact Hc]. apply published_reachable in Hj'; [|exact Hc]. rewrite history_app2 in Hj'.
  assert (W : wf_core (c_at (history os c))) by now apply wf_core_history, arrays_core.
  destruct (tuned_history os' Ht (history os c)) as [K W']. exact (published_shapes _ _ _ _ K W (W' W) Hj Hj').
Qed.

Definition tuned (c c' : comp) : Prop := kin (c_at c) (c_at c') /\ (wf_core (c_at c) -> wf_core (c_at c')).
Lemma tuned_refl c : tuned c c. Proof. split; [apply kin_refl|auto]. Qed.
Lemma tuned_trans a b c : tuned a b -> tuned b c -> tuned a c.
Proof. intros [A1 A2] [B1 B2]. split; [eapply kin_trans; eassumption|auto]. Qed.
Lemma tuned_after o c : tuning o -> tuned c (after o c).
Proof. intros H. split; [now apply kin_tuning|now apply wf_tuning]. Qed.
Lemma tuned_replace i c' cs : (forall c, nth_error cs i = Some c -> tuned c c') -> Forall2 tuned cs (replace_nth i c' cs).
Proof. intros H. apply Forall2_replace; [intros; apply tuned_refl|exact H]. Qed.
Lemma tuned_same cs : Forall2 tuned cs cs.
Proof. apply Forall2_refl_in, Forall_forall. intros; apply tuned_refl. Qed.
Lemma tuned_compile l : forall cs, Forall2 tuned cs (snd (compile_all l cs)).
Proof.
  induction l as [|(n, i) l IH]; intros cs; cbn [compile_all]; [apply tuned_same|]. destruct (nth_error cs i) as [c|] eqn:E; [|apply tuned_same].
  assert (T : tuned c (snd (jax_component c))) by (rewrite <- after_read; apply tuned_after, tune_call; exact I).
  destruct (jax_component c) as [[j|e] c']; cbn [snd] in *; [|apply tuned_replace; intros; congruence].
  specialize (IH (replace_nth i c' cs)). assert (A : Forall2 tuned cs (replace_nth i c' cs)) by (apply tuned_replace; intros; congruence).
  pose proof (Forall2_trans _ _ _ _ tuned_trans A IH) as B. destruct (compile_all l (replace_nth i c' cs)) as [[js|e] cs']; exact B.
Qed.
Definition kept (p p' : prob) : Prop := p_model p' = p_model p /\ p_comps p' = p_comps p.
Lemma kept_same ps : Forall2 kept ps ps.
Proof. apply Forall2_refl_in, Forall_forall. intros; now split. Qed.
Lemma tuned_step o w : tuning_step o -> Forall2 tuned (w_comps w) (w_comps (snd (step o w))) /\ Forall2 kept (w_probs w) (w_probs (snd (step o w))).
Proof.
  intros Ho. destruct o; cbn [step tuning_step] in *; unfold component, task, barrier; rewrite ?lookup_world; try contradiction; try (split; [apply tuned_same|apply kept_same]).
  - destruct (nth_error (w_comps w) ci) as [c|] eqn:E; [|split; [apply tuned_same|apply kept_same]].
    pose proof (tuned_after o c Ho) as T. unfold after in T. destruct (run_cop o c) as [r c']. cbn in *. split; [|apply kept_same]. apply tuned_replace. intros; congruence.
  - destruct (nth_error (w_probs w) pi) as [p|] eqn:E; [|split; [apply tuned_same|apply kept_same]]. unfold update_v_min.
    destruct (limit_vector _ _); cbn [bind snd]; (split; [apply tuned_same|]); [|apply kept_same]. apply Forall2_replace; [intros; now split|]. intros y Hy. rewrite E in Hy. injection Hy as <-. now split.
  - destruct (nth_error (w_probs w) pi) as [p|] eqn:E; [|split; [apply tuned_same|apply kept_same]]. unfold update_v_max.
    destruct (limit_vector _ _); cbn [bind snd]; (split; [apply tuned_same|]); [|apply kept_same]. apply Forall2_replace; [intros; now split|]. intros y Hy. rewrite E in Hy. injection Hy as <-. now split.
  - unfold compile. destruct (nth_error (w_probs w) pi) as [p|]; [|split; [apply tuned_same|apply kept_same]]. pose proof (tuned_compile (p_comps p) (w_comps w)) as T.
    destruct (compile_all _ _) as [[js|e] cs]; (split; [exact T|apply kept_same]).
Qed.
Lemma tuned_run os : Forall tuning_step os -> forall w, Forall2 tuned (w_comps w) (w_comps (run os w)) /\ Forall2 kept (w_probs w) (w_probs (run os w)).
Proof.
  induction 1 as [|o os Ho _ IH]; intros w; [split; [apply tuned_same|apply kept_same]|]. cbn. destruct (tuned_step o w Ho) as [A1 A2]. destruct (IH (snd (step o w))) as [B1 B2].
  split; [exact (Forall2_trans _ _ _ _ tuned_trans A1 B1)|]. eapply Forall2_trans; [|exact A2|exact B2]. intros a b c [X1 X2] [Y1 Y2]. split; congruence.
Qed.

Definition cored (c : comp) : Prop := wf_core (c_at c).
Lemma cored_after o c : wf_call o -> cored c -> cored (after o c).
Proof. intros H. now apply wf_core_after. Qed.
Lemma cored_compile l cs : Forall cored cs -> Forall cored (snd (compile_all l cs)).
Proof.
  intros H. pose proof (tuned_compile l cs) as T. induction T as [|c c' cs cs' [_ T1] _ IH]; [constructor|]. inversion H; subst. constructor; [now apply T1|auto].
Qed.
Lemma cored_step o w : (match o with WNewComp c => wf_arrays (c_at c) | WCop _ o => wf_call o | _ => True end) ->
  Forall cored (w_comps w) -> Forall cored (w_comps (snd (step o w))).
Proof.
  intros Ho H. destruct o; cbn [step] in *; unfold component, task, barrier; rewrite ?lookup_world; try exact H.
  - cbn. apply Forall_app. split; [exact H|]. constructor; [|constructor]. now apply arrays_core.
  - destruct (new_problem m vmin vmax); exact H.
  - destruct (nth_error (w_comps w) ci) as [c|] eqn:E; [|exact H].
    assert (Hc : cored c) by (rewrite Forall_forall in H; apply H; eapply nth_error_In; eauto).
    pose proof (cored_after o c Ho Hc) as T. unfold after in T. destruct (run_cop o c) as [r c']. cbn in *. now apply Forall_replace.
  - unfold add_component. destruct (nth_error _ pi) as [p|]; [|exact H]. destruct (nth_error (w_comps w) ci) as [c|] eqn:E; [|exact H]. destruct (has_name _ _); [exact H|].
    assert (Hc : cored c) by (rewrite Forall_forall in H; apply H; eapply nth_error_In; eauto).
    pose proof (cored_after (OpModel (p_model p)) c I Hc) as T. unfold after in T. change (run_cop (OpModel (p_model p)) c) with (update_model (p_model p) c) in T.
    destruct (update_model (p_model p) c) as [[[]|e] c']; cbn in *; now apply Forall_replace.
  - unfold remove_component. destruct (nth_error _ pi); [|exact H]. destruct (has_name _ _); exact H.
  - destruct (nth_error _ pi); [|exact H]. destruct (update_v_min _ _); exact H.
  - destruct (nth_error _ pi); [|exact H]. destruct (update_v_max _ _); exact H.
  - unfold compile. destruct (nth_error _ pi) as [p|]; [|exact H]. pose proof (cored_compile (p_comps p) _ H) as T. destruct (compile_all _ _) as [[js|e] cs]; exact T.
Qed.
Lemma cored_always os : Forall (fun o => match o with WNewComp c => wf_arrays (c_at c) | WCop _ o => wf_call o | _ => True end) os -> Forall cored (w_comps (state os)).
Proof.
  unfold state. intros Ho. assert (G : forall w, Forall cored (w_comps w) -> Forall cored (w_comps (run os w))); [|apply G; constructor].
  induction Ho as [|o os Ho1 _ IH]; intros w H; [exact H|]. cbn. apply IH. now apply cored_step.
Qed.

Lemma keyed_eq {A} (l l' : list (string * A)) : map fst l = map fst l' -> NoDup (map fst l) -> (forall e, In e l -> In e l') -> l = l'.
Proof.
  revert l'. induction l as [|[n a] l IH]; intros [|[n' a'] l'] E D H; cbn in *; try discriminate; [reflexivity|]. injection E as E1 E2. subst n'. inversion D as [|? ? D1 D2]; subst.
  assert (A0 : (n, a) = (n, a')).
  { destruct (H (n, a) (or_introl eq_refl)) as [X|X]; [now symmetry|]. exfalso. apply D1. rewrite E2. exact (in_map fst _ _ X). }
  rewrite <- A0. f_equal. apply IH; [exact E2|exact D2|]. intros e He. destruct (H e (or_intror He)) as [X|X]; [|exact X].
  exfalso. apply D1. subst e. exact (in_map fst _ _ He).
Qed.
Lemma keyed_sort {A} (l l' : list (string * A)) : map fst l = map fst l' -> NoDup (map fst l) -> ssort l = ssort l' -> l = l'.
Proof.
  intros E D H. apply keyed_eq; [exact E|exact D|]. intros e He. apply (Permutation_in e (Permutation_sym (ssort_perm l'))). rewrite <- H. exact (Permutation_in e (ssort_perm l) He).
Qed.

Definition entries (es : list (string * jaxc)) := map (fun e : string * py => (fst e, signature (snd e))) (map (fun e => (fst e, component_object (snd e))) es).
Lemma entries_iff l es es' (P : jaxc -> jaxc -> Prop) : Forall2 (fun (e : string * nat) r => fst r = fst e) l es -> Forall2 (fun (e : string * nat) r => fst r = fst e) l es' ->
  Forall2 (fun e e' => traced_once (component_object (snd e)) (component_object (snd e')) <-> P (snd e) (snd e')) es es' ->
  (entries es = entries es' <-> Forall2 (fun e e' => fst e = fst e' /\ P (snd e) (snd e')) es es').
Proof.
  revert es es'. induction l as [|x l IH]; intros es es' H1 H2 H3; inversion H1 as [|? e ? r A1 A2]; inversion H2 as [|? e' ? r' B1 B2]; subst.
  - split; constructor.
  - inversion H3 as [|? ? ? ? C1 C2]; subst. specialize (IH _ _ A2 B2 C2). cbn [entries map]. fold (entries r) (entries r'). split.
    + intros H. constructor.
      * split; [congruence|]. apply C1. unfold traced_once. pose proof (f_equal (hd ("", PNone)%string) H) as X. cbn [hd fst snd] in X. now injection X.
      * apply IH. exact (f_equal (@tl _) H).
    + intros H. inversion H as [|? ? ? ? [D1 D2] D3]; subst. apply C1 in D2. unfold traced_once in D2. cbn [fst snd]. rewrite D1, D2. f_equal. now apply IH.
Qed.
Lemma entries_keys l es : Forall2 (fun (e : string * nat) (r : string * jaxc) => fst r = fst e) l es -> map fst (entries es) = map fst l.
Proof. induction 1 as [|e r l es X _ IH]; [reflexivity|]. unfold entries in *. cbn [map fst]. f_equal; [exact X|exact IH]. Qed.
Lemma trace_program os os' pi pd pd' : documented os -> Forall tuning_step os' -> compiled_by os pi pd -> compiled_by (os ++ os') pi pd' ->
  (traced_once (data_object pd) (data_object pd') <-> Forall2 (fun e e' => fst e = fst e' /\ same_shapes (snd e) (snd e')) (jd_comps pd) (jd_comps pd')).
Proof.
  intros (Hl & Hw & Hd) Ht Hp Hp'. unfold compiled_by in *. change (run os empty_world) with (state os) in Hp. change (run (os ++ os') empty_world) with (state (os ++ os')) in Hp'.
  assert (ES : state (os ++ os') = run os' (state os)) by (unfold state, run; now rewrite fold_left_app).
  destruct (tuned_run os' Ht (state os)) as [T1 T2]. rewrite <- ES in T1, T2.
  assert (Hl' : Forall legal (os ++ os')).
  { apply Forall_app. split; [exact Hl|]. eapply Forall_impl; [|exact Ht]. intros [] X; cbn in *; tauto. }
  assert (Hw' : Forall wf_wop (os ++ os')).
  { apply Forall_app. split; [exact Hw|]. eapply Forall_impl; [|exact Ht]. intros [] X; cbn in *; tauto. }
  assert (EP : exists p, problem_of (state os) pi p).
  { cbn [step] in Hp. unfold compile in Hp. unfold problem_of. destruct (nth_error (w_probs (state os)) pi); [eauto|discriminate]. }
  destruct EP as [p Ep]. destruct (Forall2_nth _ _ _ _ _ T2 Ep) as (p' & Ep' & Km & Kc). fold (problem_of (state (os ++ os')) pi p') in Ep'.
  pose proof (proj1 (proj1 (compile_spec os pi p Hl Ep) pd) Hp) as (S1 & S2 & S3 & S4).
  pose proof (proj1 (proj1 (compile_spec _ pi p' Hl' Ep') pd') Hp') as (Q1 & Q2 & Q3 & Q4).
  destruct (limits_length os pi p Hw Ep) as [L1 L2]. destruct (limits_length _ pi p' Hw' Ep') as [L1' L2'].
  pose proof (contents os pi) as ND. unfold problem_of in Ep. rewrite Ep in ND. destruct ND as [_ ND].
  pose proof (reach_always os Hl) as R1. pose proof (reach_always _ Hl') as R2. pose proof (cored_always os Hd) as C1.
  rewrite Kc in Q4. rewrite Km in Q1, L1', L2'. rewrite <- Q2 in L1'. rewrite <- Q3 in L2'. rewrite <- S2 in L1. rewrite <- S3 in L2. rewrite <- S1 in Q1.
  assert (F1 : Forall2 (fun (e : string * nat) (r : string * jaxc) => fst r = fst e) (p_comps p) (jd_comps pd)) by (eapply Forall2_impl; [|exact S4]; intros ? ? [X _]; exact X).
  assert (F2 : Forall2 (fun (e : string * nat) (r : string * jaxc) => fst r = fst e) (p_comps p) (jd_comps pd')) by (eapply Forall2_impl; [|exact Q4]; intros ? ? [X _]; exact X).
  assert (F3 : Forall2 (fun e e' : string * jaxc => traced_once (component_object (snd e)) (component_object (snd e')) <-> same_shapes (snd e) (snd e')) (jd_comps pd) (jd_comps pd')).
  { clear - S4 Q4 T1 R1 R2 C1. revert S4 Q4. generalize (jd_comps pd) (jd_comps pd'). induction (p_comps p) as [|[n i] l IH]; intros es es' H H'; inversion H as [|? e ? r A1 A2]; inversion H' as [|? e' ? r' B1 B2]; subst; constructor; [|now apply IH].
    destruct A1 as (_ & c & Ec & J), B1 as (_ & c' & Ec' & J'). cbn [snd] in *. destruct (Forall2_nth _ _ _ _ _ T1 Ec) as (c2 & Ec2 & K & W). assert (c2 = c') by congruence; subst c2.
    rewrite Forall_forall in R1, R2, C1. pose proof (C1 _ (nth_error_In _ _ Ec)) as W0. apply (published_shapes c c'); auto.
    - apply availability; [exact (R1 _ (nth_error_In _ _ Ec))|exact J].
    - apply availability; [exact (R2 _ (nth_error_In _ _ Ec'))|exact J']. }
  rewrite <- (entries_iff _ _ _ _ F1 F2 F3).
  pose proof (entries_keys _ _ F1) as EK1. pose proof (entries_keys _ _ F2) as EK2.
  unfold traced_once, data_object. cbn [signature map dyn fst snd]. fold (entries (jd_comps pd)) (entries (jd_comps pd')). cbn [tvec t_shape]. rewrite L1, L2, L1', L2', Q1. split.
  - intros H. injection H as H. apply keyed_sort in H; [exact H|congruence|congruence].
  - intros ->. reflexivity.
Qed.
