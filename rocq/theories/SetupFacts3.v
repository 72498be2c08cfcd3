(** Lemmas behind C92: control loops. *)
From Verif Require Import Base Lin LinFacts Mjx Typing Component Problem SpecComponent SpecJoint SpecHistory SpecTyping SpecCollision SpecTree SpecShape SpecContact SpecValue SpecProblem SpecQP SpecFit SpecTrace SpecSetup.
From Verif Require Import ComponentFacts ComponentFacts2 ApiSteps CoreFacts JointFacts BindFacts BindFacts2 BindFacts3 ProblemFacts CompThms BindThms ProbThms ShareFacts FitFacts FitFacts3 TraceFacts SetupFacts SetupFacts2.
Open Scope nat_scope.
#[local] Arguments update_model : simpl never.
#[local] Arguments jax_component : simpl never.

Definition filled (a : attrs) : Prop :=
  match a_ext a with
  | XTask _ _ (TJoint j) => jt_target j <> None
  | XBarrier _ (BJoint j) => jb_qmin j <> None /\ jb_qmax j <> None
  | _ => True
  end.
Lemma filled_step a a' : astep a a' -> filled a -> filled a'.
Proof.
  intros H F. destruct H; try exact F; unfold filled in *; cbn; try (rewrite H in F; try exact F; try exact I).
  - discriminate.
  - split; [discriminate|apply F].
  - split; [apply F|discriminate].
  - destruct (forced_other _ _ H) as (_ & _ & _ & _ & _ & ->). exact F.
Qed.
Lemma filled_tuning o c : tuning o -> filled (c_at c) -> filled (c_at (after o c)).
Proof.
  intros [o' Hn _|b|x|x] F.
  - assert (S : asteps (c_at c) (c_at (after o' c))) by (apply api_steps; [destruct o'; cbn in *; tauto|intros m ->; exact Hn]).
    revert F. induction S; eauto using filled_step.
  - unfold after, filled in *. cbn. unfold assign_active. destruct (a_ext (c_at c)) eqn:E; cbn; rewrite ?E; exact F.
  - unfold after, filled in *. cbn. unfold assign_safe_displacement_gain. destruct (a_ext (c_at c)) eqn:E; cbn; rewrite ?E; exact F.
  - unfold after, filled in *. cbn. unfold assign_d_min. destruct (a_ext (c_at c)) as [|s [| |k|]|] eqn:E; cbn; rewrite ?E; exact F.
Qed.
(** A relation that every allowed call establishes holds across programs. *)
Section over.
  Variables (R : comp -> comp -> Prop) (A : cop -> Prop).
  Hypotheses (Rr : forall c, R c c) (Rt : forall a b c, R a b -> R b c -> R a c) (RA : forall o c, A o -> R c (after o c)) (AJ : A OpReadJax).
  Lemma over_replace i c' cs : (forall c, nth_error cs i = Some c -> R c c') -> Forall2 R cs (replace_nth i c' cs).
  Proof. intros H. apply Forall2_replace; [intros; apply Rr|exact H]. Qed.
  Lemma over_same cs : Forall2 R cs cs.
  Proof. apply Forall2_refl_in, Forall_forall. intros; apply Rr. Qed.
  Lemma over_compile l : forall cs, Forall2 R cs (snd (compile_all l cs)).
  Proof.
    induction l as [|(n, i) l IH]; intros cs; cbn [compile_all]; [apply over_same|]. destruct (nth_error cs i) as [c|] eqn:E; [|apply over_same].
    assert (T : R c (snd (jax_component c))) by (rewrite <- after_read; now apply RA).
    destruct (jax_component c) as [[j|e] c']; cbn [snd] in *; [|apply over_replace; intros; congruence].
    specialize (IH (replace_nth i c' cs)). assert (B : Forall2 R cs (replace_nth i c' cs)) by (apply over_replace; intros; congruence).
    pose proof (Forall2_trans _ _ _ _ Rt B IH) as C. destruct (compile_all l (replace_nth i c' cs)) as [[js|e] cs']; exact C.
  Qed.
  Lemma over_run os : Forall tuning_step os -> Forall (fun o => match o with WCop _ o => A o | _ => True end) os ->
    forall w, Forall2 R (w_comps w) (w_comps (run os w)).
  Proof.
    induction os as [|o os IH]; intros Ht Ha w; [apply over_same|]. cbn. eapply (Forall2_trans _ _ _ _ Rt); [|apply IH; [exact (Forall_inv_tail Ht)|exact (Forall_inv_tail Ha)]].
    apply Forall_inv in Ht, Ha. destruct o; cbn [step tuning_step] in *; unfold component, task, barrier; rewrite ?lookup_world; try contradiction; try apply over_same.
    - destruct (nth_error (w_comps w) ci) as [c|] eqn:E; [|apply over_same]. pose proof (RA o c Ha) as T. unfold after in T. destruct (run_cop o c) as [r c']. cbn in *. apply over_replace. intros; congruence.
    - destruct (nth_error (w_probs w) pi) as [p|]; [|apply over_same]. unfold update_v_min. destruct (limit_vector _ _); apply over_same.
    - destruct (nth_error (w_probs w) pi) as [p|]; [|apply over_same]. unfold update_v_max. destruct (limit_vector _ _); apply over_same.
    - unfold compile. destruct (nth_error (w_probs w) pi) as [p|]; [|apply over_same]. pose proof (over_compile (p_comps p) (w_comps w)) as T. destruct (compile_all _ _) as [[js|e] cs]; exact T.
  Qed.
End over.

Definition weight (a : attrs) : tensor * option tensor := (a_gain a, match a_ext a with XTask cost _ _ => Some cost | _ => None end).
Definition fixes_weight (o : cop) : Prop := tuning o /\ match o with OpGain _ | OpCost _ => False | _ => True end.
Lemma core_weight a a' : core a' = core a -> weight a' = weight a.
Proof.
  unfold core, weight. intros H. injection H as _ H2 _ H4. rewrite H2. f_equal. destruct (a_ext a), (a_ext a'); cbn in H4; try discriminate; try reflexivity. now injection H4 as -> _.
Qed.
Lemma weight_after o c : fixes_weight o -> weight (c_at (after o c)) = weight (c_at c).
Proof.
  intros [[o' Hn Hw|b|x|x] Hf].
  - destruct o'; cbn in Hn, Hf; try contradiction; unfold after; cbn [run_cop]; apply core_weight.
    + apply keeps_com.
    + apply keeps_pos.
    + apply keeps_frame.
    + apply keeps_q.
    + apply keeps_pmin.
    + apply keeps_pmax.
    + apply keeps_qmin.
    + apply keeps_qmax.
    + apply ignore_keeps, keeps_mask.
    + apply ignore_keeps, keeps_mask_idxs.
    + apply ignore_keeps, keeps_jax.
  - unfold after, weight. cbn. unfold assign_active. destruct (a_ext (c_at c)) eqn:E; cbn; rewrite ?E; reflexivity.
  - unfold after, weight. cbn. unfold assign_safe_displacement_gain. destruct (a_ext (c_at c)) eqn:E; cbn; rewrite ?E; reflexivity.
  - unfold after, weight. cbn. unfold assign_d_min. destruct (a_ext (c_at c)) as [|s [| |k|]|] eqn:E; cbn; rewrite ?E; reflexivity.
Qed.
Lemma weight_fit c c' d : weight (c_at c') = weight (c_at c) -> weights_fit c d -> weights_fit c' d.
Proof.
  unfold weight, weights_fit. intros H. injection H as H1 H2. rewrite H1. destruct (a_ext (c_at c)), (a_ext (c_at c')); try discriminate; intros [A B]; (split; [exact A|]); try exact I. injection H2 as ->. exact B.
Qed.

Lemma complete_filled c d : complete c d -> filled (c_at c).
Proof. intros (_ & _ & _ & H). unfold filled. destruct (a_ext (c_at c)) as [? ? []|? []|]; tauto. Qed.
Lemma complete_weights c d : complete c d -> weights_fit c d.
Proof. intros (_ & _ & G & H). split; [exact G|]. destruct (a_ext (c_at c)) as [? ? []|? []|]; tauto. Qed.
Lemma complete_kin c c' d : complete c d -> kin (c_at c) (c_at c') -> (filled (c_at c) -> filled (c_at c')) -> forall d', (complete c' d' <-> d' = d /\ weights_fit c' d).
Proof.
  intros H (K1 & K2 & _ & _ & K5) F d'. specialize (F (complete_filled _ _ H)). split.
  - intros H'. assert (d' = d). { destruct H as [H _], H' as [H' _]. apply Nat2Z.inj. congruence. } subst. split; [reflexivity|]. now apply complete_weights.
  - intros [-> [G W]]. destruct H as (D & Mo & _ & H). split; [congruence|]. split; [congruence|]. split; [exact G|].
    unfold filled in F. destruct (a_ext (c_at c)) as [cost lm [t|o t|o t|j|f]|sdg [p|j|s|f]|act h soft [|f]]; destruct (a_ext (c_at c')) as [cost' lm' [t'|o' t'|o' t'|j'|f']|sdg' [p'|j'|s'|f']|act' h' soft' [|f']];
      cbn in K5; try discriminate K5; try (split; [exact W|exact I]); try exact I.
    + injection K5 as _ _ E. split; [exact W|]. split; [exact F|]. rewrite E. apply H.
    + injection K5 as E. rewrite E. exact H.
    + injection K5 as _ E. split; [apply F|]. split; [apply F|]. rewrite E. apply H.
    + injection K5 as _ _ _ E _. rewrite E. exact H.
    + injection K5 as _ ->. exact H.
    + injection K5 as _ -> _. exact H.
Qed.

(** The problem and components after setting up and tuning. *)
Lemma setup_tuned m lo hi cs os : sound_model m -> wf_tensor lo -> wf_tensor hi -> Forall constructed cs -> Forall (fun c => wf_arrays (c_at c)) cs ->
  limit_fits m lo -> limit_fits m hi -> NoDup (map nm cs) -> Forall (fun c => exists d, suits m c d) cs -> Forall tuning_step os ->
  let w := state (setup m lo hi cs ++ os) in
  exists p, problem_of w 0 p /\ p_model p = m /\ p_comps p = combine (map nm cs) (seq 0 (List.length cs)) /\
  Forall2 (fun c c' => exists d, suits m c d /\ complete (bound m c) d /\ kin (c_at (bound m c)) (c_at c') /\ wf_core (c_at c') /\ forall d', (complete c' d' <-> d' = d /\ weights_fit c' d)) cs (w_comps w) /\
  (Forall steering os -> Forall2 (fun c c' => weight (c_at c') = weight (c_at (bound m c))) cs (w_comps w)).
Proof.
  intros Hm Wl Wh Hc Hw Fl Fh Nd Hs Ht w.
  assert (Hb : Forall (bodies_known m) cs) by (eapply Forall_impl; [|exact Hs]; apply suits_known).
  destruct (proj2 (setup_iff m lo hi cs Hm Wl Wh Hc Hw Hb)) as [R _]; [auto|].
  destruct (proj2 (setup_runs m lo hi cs Wl Wh) R) as (vl & vh & _ & _ & E).
  assert (EW : w = run os (mkW (map (bound m) cs) [mkP m vl vh (combine (map nm cs) (seq 0 (List.length cs)))])).
  { subst w. unfold state, run. rewrite fold_left_app. unfold state, run in E. now rewrite E. }
  destruct (tuned_run os Ht (mkW (map (bound m) cs) [mkP m vl vh (combine (map nm cs) (seq 0 (List.length cs)))])) as [T1 T2]. rewrite <- EW in T1, T2. cbn [w_comps w_probs] in T1, T2.
  assert (T3 : Forall2 (fun c c' => filled (c_at c) -> filled (c_at c')) (map (bound m) cs) (w_comps w)).
  { rewrite EW. refine (over_run (fun c c' => filled (c_at c) -> filled (c_at c')) tuning _ _ _ _ os Ht _ (mkW (map (bound m) cs) [mkP m vl vh (combine (map nm cs) (seq 0 (List.length cs)))])); auto.
    - intros o c H. now apply filled_tuning.
    - apply tune_call; exact I.
    - eapply Forall_impl; [|exact Ht]. intros [] X; cbn in *; tauto. }
  assert (T4 : Forall steering os -> Forall2 (fun c c' => weight (c_at c') = weight (c_at c)) (map (bound m) cs) (w_comps w)).
  { intros Hst. rewrite EW. refine (over_run (fun c c' => weight (c_at c') = weight (c_at c)) fixes_weight _ _ _ _ os Ht _ (mkW (map (bound m) cs) [mkP m vl vh (combine (map nm cs) (seq 0 (List.length cs)))])); auto.
    - intros; congruence.
    - intros o c H. now apply weight_after.
    - split; [apply tune_call; exact I|exact I].
    - eapply Forall_impl; [|exact Hst]. intros [] [X Y]; cbn in *; try tauto. split; [exact X|]. destruct o; auto. }
  inversion T2 as [|? p' ? ? [K1 K2] T2' EE EE']; subst. inversion T2'; subst. exists p'.
  split; [unfold problem_of; now rewrite <- EE'|]. split; [exact K1|]. split; [exact K2|]. split.
  - clear - T1 T3 Hm Hc Hw Hs. revert T1 T3. generalize (w_comps w). induction cs as [|c cs IH]; intros l T1 T3; inversion T1 as [|? c' ? l' [A1 A2] A3]; subst; [constructor|]. inversion T3 as [|? ? ? ? B1 B2]; subst.
    constructor; [|apply IH; auto; eauto using Forall_inv_tail].
    apply Forall_inv in Hc, Hw, Hs. destruct Hs as [d D]. exists d. split; [exact D|].
    destruct (suits_usable m c d (made_reachable c Hc) (arrays_core _ Hw) Hm D) as [_ U]. fold (bound m c) in U.
    apply compiles_iff in U; [|apply bound_reachable, made_reachable, Hc|apply bound_core, arrays_core, Hw]. split; [exact U|]. split; [exact A1|]. split; [apply A2, bound_core, arrays_core, Hw|].
    now apply (complete_kin (bound m c)).
  - intros Hst. specialize (T4 Hst). clear - T4. revert T4. generalize (w_comps w). induction cs as [|c cs IH]; intros l T; inversion T; subst; constructor; auto.
Qed.
Lemma tuned_ops os : Forall tuning_step os -> Forall legal os /\ Forall wf_wop os.
Proof. intros H. split; (eapply Forall_impl; [|exact H]); intros [] X; cbn in *; tauto. Qed.
Lemma setup_wf m lo hi cs : wf_tensor lo -> wf_tensor hi -> Forall wf_wop (setup m lo hi cs).
Proof. intros H1 H2. unfold setup. constructor; [now split|]. apply Forall_app. split; apply Forall_map, Forall_forall; intros; exact I. Qed.

(** Compiling when everything registered is complete, without asking that the program
    contains documented calls only. *)
Lemma compile_complete2 os pi p : Forall legal os -> Forall cored (w_comps (state os)) -> problem_of (state os) pi p ->
  ((exists pd, compiled_by os pi pd) <->
   forall n i, In (n, i) (p_comps p) -> exists c d, nth_error (w_comps (state os)) i = Some c /\ complete c d).
Proof.
  intros Hl Hc Ep. destruct (compile_spec os pi p Hl Ep) as (_ & S & _). unfold compiled_by, state in *. rewrite S.
  pose proof (reach_always os Hl) as Hr. unfold state in *. rewrite Forall_forall in Hr, Hc.
  split; intros H n i Hi; specialize (H n i Hi).
  - destruct H as (c & j & Hn & Hj). apply nth_error_In in Hn as Hin. 
    assert (C : compiles c j) by exact Hj. assert (Pb := C). apply availability in Pb; [|auto]. destruct Pb as (_ & P2 & _ & P3 & _).
    exists c, (Z.to_nat (j_dim j)). split; [exact Hn|]. apply compiles_iff; [auto|exact (Hc c Hin)|]. exists j. split; [exact C|].
    rewrite Z2Nat.id; [reflexivity|]. rewrite P2, (vector_gain_dim _ _ P3). lia.
  - destruct H as (c & d & Hn & Hd). apply nth_error_In in Hn as Hin. apply compiles_iff in Hd; [|auto|exact (Hc c Hin)]. destruct Hd as (j & Hj & _). eauto.
Qed.
Lemma Forall2_nth_l {A B} (R : A -> B -> Prop) l l' i y : Forall2 R l l' -> nth_error l' i = Some y -> exists x, nth_error l i = Some x /\ R x y.
Proof. intros H. revert i. induction H as [|a b l l' H _ IH]; intros [|i] E; cbn in *; try discriminate; [injection E as <-; eauto|auto]. Qed.

Lemma settings_iff m lo hi cs os : sound_model m -> wf_tensor lo -> wf_tensor hi -> Forall constructed cs -> Forall (fun c => wf_arrays (c_at c)) cs ->
  limit_fits m lo -> limit_fits m hi -> NoDup (map nm cs) -> Forall (fun c => exists d, suits m c d) cs -> Forall tuning_step os ->
  ((exists pd, compiled_by (setup m lo hi cs ++ os) 0 pd) <->
   Forall2 (fun c c' => exists d, suits m c d /\ weights_fit c' d) cs (w_comps (state (setup m lo hi cs ++ os)))).
Proof.
  intros Hm Wl Wh Hc Hw Fl Fh Nd Hs Ht. destruct (setup_tuned m lo hi cs os Hm Wl Wh Hc Hw Fl Fh Nd Hs Ht) as (p & Ep & P1 & P2 & P3 & _).
  assert (Hl : Forall legal (setup m lo hi cs ++ os)) by (apply Forall_app; split; [now apply setup_legal|now apply tuned_ops]).
  assert (Hco : Forall cored (w_comps (state (setup m lo hi cs ++ os)))).
  { clear - P3. induction P3 as [|c c' l l' (d & _ & _ & _ & W & _) _ IH]; constructor; auto. }
  rewrite (compile_complete2 _ 0 p Hl Hco Ep), P2. set (w := state (setup m lo hi cs ++ os)) in *. split.
  - intros H. assert (G : forall i c c', nth_error cs i = Some c -> nth_error (w_comps w) i = Some c' -> exists d, suits m c d /\ weights_fit c' d).
    { intros i c c' E1 E2. destruct (H _ _ (entries_in cs 0 i c E1)) as (c2 & d & E3 & C). change (0 + i) with i in E3. assert (c2 = c') by congruence; subst c2.
      destruct (Forall2_nth _ _ _ _ _ P3 E1) as (c2 & E4 & d0 & D & _ & _ & _ & I). assert (c2 = c') by congruence; subst c2. apply I in C as [-> C]. eauto. }
    clear - G P3. revert G. induction P3 as [|c c' l l' _ _ IH]; intros G; constructor; [exact (G 0 c c' eq_refl eq_refl)|]. apply IH. intros i. exact (G (S i)).
  - intros H n i Hin. destruct (in_entries m cs 0 n i Hin) as (c & E1 & _). rewrite Nat.sub_0_r in E1.
    destruct (Forall2_nth _ _ _ _ _ P3 E1) as (c' & E4 & d0 & D & _ & _ & _ & I). destruct (Forall2_nth _ _ _ _ _ H E1) as (c2 & E5 & d & D' & Wf). assert (c2 = c') by congruence; subst c2.
    assert (d = d0) by (apply (suits_unique m c); auto; apply Hm). subst d0. exists c', d. split; [exact E4|]. now apply I.
Qed.
Definition class_of (e : ext) : nat :=
  match e with
  | XTask _ _ (TCom _) => 0 | XTask _ _ (TPos _ _) => 1 | XTask _ _ (TFrame _ _) => 2 | XTask _ _ (TJoint _) => 3 | XTask _ _ (TCustom _) => 4
  | XBarrier _ (BPos _) => 5 | XBarrier _ (BJoint _) => 6 | XBarrier _ (BSelf _) => 7 | XBarrier _ (BCustom _) => 8
  | XConstraint _ _ _ CModelEq => 9 | XConstraint _ _ _ (CCustom _) => 10
  end.
Lemma class_bare e : class_of (bare e) = class_of e.
Proof. destruct e as [? ? []|? []|? ? ? []]; reflexivity. Qed.
Lemma class_bound m c d : sound_model m -> suits m c d -> fst (update_model m c) = Ok tt -> class_of (a_ext (c_at (bound m c))) = class_of (a_ext (c_at c)).
Proof.
  intros Hm Hs Ok_. destruct Hm as ((Wj & _) & Wb & _ & Wn & _ & We & _). unfold bound. unfold suits in Hs.
  destruct (a_ext (c_at c)) as [cost lm k|sdg k|act h soft k] eqn:E; [destruct k as [t|o t|o t|j|f]|destruct k as [p|j|s|f]|destruct k as [|f]];
    try (assert (HU : update_model m c = seta (fun a => set_a_model a m) c) by (unfold update_model, mbind, read; now rewrite E); rewrite HU; cbn; now rewrite E).
  - assert (Ho : object_of (c_at c) = Some o) by (unfold object_of; now rewrite E). rewrite (obj_bind _ _ _ Ho) in *.
    destruct (_ =? _)%Z; [discriminate|]. unfold set_obj_id. cbn. now rewrite E.
  - assert (Ho : object_of (c_at c) = Some o) by (unfold object_of; now rewrite E). rewrite (obj_bind _ _ _ Ho) in *.
    destruct (_ =? _)%Z; [discriminate|]. unfold set_obj_id. cbn. now rewrite E.
  - destruct (joint_task_bind m c cost lm j Wj E) as [_ B2]. destruct Hs as (_ & _ & F & _). destruct (B2 F) as (_ & D & Mo & _ & _ & G & X). now rewrite X.
  - assert (Ho : object_of (c_at c) = Some (pb_obj p)) by (unfold object_of; now rewrite E). rewrite (obj_bind _ _ _ Ho) in *.
    destruct (_ =? _)%Z; [discriminate|]. unfold set_obj_id. cbn. now rewrite E.
  - destruct (joint_barrier_bind m c sdg j Wj E) as [_ B2]. destruct Hs as (_ & F & _ & N). destruct (B2 F) as (D & Mo & _ & _ & G & U & _ & X). now rewrite (X Ok_).
  - assert (B := self_bind m c sdg s E). destruct (exclude_set m (sc_excl_raw s) []); [|congruence]. destruct (generate_collision_pairs m (listed m (sc_bodies s)) _); [|congruence]. cbn zeta in B. now rewrite B.
  - destruct (equality_bind m c act h soft E We) as [B1 _]. destruct Hs as (_ & _ & F & _). rewrite (B1 F). cbn. now rewrite E.
Qed.
Lemma class_published c c' j : class_of (a_ext (c_at c')) = class_of (a_ext (c_at c)) -> published c' j -> same_class c j.
Proof.
  intros H (_ & _ & _ & _ & _ & _ & P7). unfold same_class.
  inversion P7 as [? ? ? ? X M|? ? ? ? ? X M|? ? ? ? ? X M|? ? ? ? ? ? X M|? ? ? ? X M|? ? ? ? ? ? X M|? ? ? ? ? X|? ? ? ? ? ? ? X M|? ? X|? ? ? ? X M|? ? ? ? ? X M]; rewrite X in H;
    destruct (a_ext (c_at c)) as [? ? []|? []|? ? ? []]; cbn in H; try discriminate H; exact I.
Qed.
Lemma loop_compiles m lo hi cs os : sound_model m -> wf_tensor lo -> wf_tensor hi -> Forall constructed cs -> Forall (fun c => wf_arrays (c_at c)) cs ->
  limit_fits m lo -> limit_fits m hi -> NoDup (map nm cs) -> Forall (fun c => exists d, suits m c d) cs -> Forall steering os ->
  exists pd, compiled_by (setup m lo hi cs ++ os) 0 pd /\ jd_model pd = m /\ List.length (jd_vmin pd) = m_nv m /\ List.length (jd_vmax pd) = m_nv m /\
    Forall2 (fun c e => fst e = nm c /\ same_class c (snd e) /\ exists d, suits m c d /\ j_dim (snd e) = Z.of_nat d) cs (jd_comps pd).
Proof.
  intros Hm Wl Wh Hc Hw Fl Fh Nd Hs Hst. assert (Ht : Forall tuning_step os) by (eapply Forall_impl; [|exact Hst]; intros o [X _]; exact X).
  destruct (setup_tuned m lo hi cs os Hm Wl Wh Hc Hw Fl Fh Nd Hs Ht) as (p & Ep & P1 & P2 & P3 & P4). specialize (P4 Hst).
  assert (W : Forall2 (fun c c' => exists d, suits m c d /\ weights_fit c' d) cs (w_comps (state (setup m lo hi cs ++ os)))).
  { clear - P3 P4. induction P3 as [|c c' l l' (d & D & C & _) _ IH]; [constructor|]. inversion P4; subst. constructor; [|auto]. exists d. split; [exact D|]. apply (weight_fit (bound m c)); [assumption|]. now apply complete_weights. }
  destruct (proj2 (settings_iff m lo hi cs os Hm Wl Wh Hc Hw Fl Fh Nd Hs Ht) W) as [pd Hpd]. exists pd. split; [exact Hpd|].
  assert (Hl : Forall legal (setup m lo hi cs ++ os)) by (apply Forall_app; split; [now apply setup_legal|now apply tuned_ops]).
  assert (Hf : Forall wf_wop (setup m lo hi cs ++ os)) by (apply Forall_app; split; [now apply setup_wf|now apply tuned_ops]).
  destruct (limits_length _ 0 p Hf Ep) as [L1 L2].
  destruct (proj1 (proj1 (compile_spec _ 0 p Hl Ep) pd) Hpd) as (S1 & S2 & S3 & S4). rewrite S1, S2, S3, P1, L1, L2, P1. split; [reflexivity|]. split; [reflexivity|]. split; [reflexivity|].
  rewrite P2 in S4. pose proof (reach_always _ Hl) as Hr. rewrite Forall_forall in Hr.
  assert (G : forall i c e, nth_error cs i = Some c -> nth_error (jd_comps pd) i = Some e -> fst e = nm c /\ same_class c (snd e) /\ exists d, suits m c d /\ j_dim (snd e) = Z.of_nat d).
  { intros i c e E1 E2. destruct (Forall2_nth_l _ _ _ _ _ S4 E2) as ([n k] & E3 & F1 & c' & E4 & J). cbn [fst snd] in *.
    assert (n = nm c /\ k = i).
    { clear - E1 E3. assert (G : forall l b i c, nth_error l i = Some c -> nth_error (combine (map nm l) (seq b (List.length l))) i = Some (nm c, b + i)).
      { induction l as [|x l IH]; intros b [|j] y E; cbn in *; try discriminate; [injection E as ->; now rewrite Nat.add_0_r|]. rewrite (IH (S b) j y E). do 2 f_equal. lia. }
      rewrite (G cs 0 i c E1) in E3. injection E3 as <- <-. auto. }
    destruct H as [-> ->]. split; [exact F1|]. destruct (Forall2_nth _ _ _ _ _ P3 E1) as (c2 & E5 & d & D & C & K & _). assert (c2 = c') by congruence; subst c2.
    assert (Pb : compiles c' (snd e)) by exact J. apply availability in Pb; [|apply Hr; eapply nth_error_In; eauto].
    split. { apply (class_published c c'); [|exact Pb]. destruct K as (_ & _ & _ & _ & K). rewrite <- class_bare, K, class_bare. apply (class_bound m c d Hm D). destruct (suits_usable m c d) as [U _]; auto.
      - apply made_reachable. apply nth_error_In in E1. rewrite Forall_forall in Hc. auto.
      - apply arrays_core. apply nth_error_In in E1. rewrite Forall_forall in Hw. now apply Hw. }
    exists d. split; [exact D|]. destruct Pb as (_ & Q & _). destruct K as (_ & K & _). destruct C as [C _]. congruence. }
  assert (Ln : List.length cs = List.length (jd_comps pd)). { apply Forall2_length in S4. rewrite combine_length, map_length, seq_length, Nat.min_id in S4. exact S4. }
  clear - G Ln. revert G Ln. generalize (jd_comps pd). induction cs as [|c cs IH]; intros [|e l] G Ln; cbn in Ln; try discriminate; constructor; [exact (G 0 c e eq_refl eq_refl)|]. apply IH; [|lia]. intros i. exact (G (S i)).
Qed.
Lemma loop_tidy m lo hi cs os : sound_model m -> wf_tensor lo -> wf_tensor hi -> Forall constructed cs -> Forall (fun c => wf_arrays (c_at c)) cs ->
  limit_fits m lo -> limit_fits m hi -> NoDup (map nm cs) -> Forall (fun c => exists d, suits m c d) cs -> Forall steering os -> Forall proper os -> tidy m (setup m lo hi cs ++ os).
Proof.
  intros Hm Wl Wh Hc Hw Fl Fh Nd Hs Hst Hp. assert (Ht : Forall tuning_step os) by (eapply Forall_impl; [|exact Hst]; intros o [X _]; exact X).
  destruct (setup_result m lo hi cs Hm Wl Wh Hc Hw Fl Fh Nd Hs) as [(_ & T1 & T2 & T3 & T4 & T5) _]. destruct (tuned_ops os Ht) as [O1 O2].
  split; [exact Hm|]. split; [now apply Forall_app|]. split; [|split; [now apply Forall_app|split; [now apply Forall_app|]]].
  - apply Forall_app. split; [exact T2|]. rewrite Forall_forall in Ht, Hp |- *. intros o Ho. specialize (Ht o Ho). specialize (Hp o Ho). destruct o as [| |ci o| | | | | | | |]; cbn in *; try contradiction; try exact I. destruct o; try exact I; [inversion Ht; subst; contradiction|exact Hp].
  - intros k o Hk Hb. destruct (Nat.lt_ge_cases k (List.length (setup m lo hi cs))) as [Lk|Lk].
    + rewrite nth_error_app1 in Hk by exact Lk. rewrite firstn_app. replace (k - List.length (setup m lo hi cs)) with 0 by lia. cbn [firstn]. rewrite app_nil_r. now apply T5.
    + rewrite nth_error_app2 in Hk by exact Lk. apply nth_error_In in Hk. rewrite Forall_forall in Ht. specialize (Ht o Hk). destruct o as [| |ci o| | | | | | | |]; cbn in *; try contradiction. destruct o; cbn in *; try contradiction. inversion Ht; subst; contradiction.
Qed.
