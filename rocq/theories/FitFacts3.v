(** Programs: every compiled component fits. *)
From Verif Require Import Base Lin LinFacts Mjx Typing Component Problem SpecComponent SpecJoint SpecHistory SpecCollision SpecTree SpecShape SpecContact SpecSelf SpecMotion SpecConf Rot Conf FrameJac Collide JaxComponents LocalIK SpecQP SpecProblem SpecValue SpecFit.
From Verif Require Import ComponentFacts ComponentFacts2 ApiSteps CoreFacts FrameFacts CollideFacts3 CollideFacts4 ConfFacts ConfFacts3 MotionFacts MotionFacts2 ProblemFacts ProbThms ShareFacts QPFacts QPThms4 QPThms5 FitFacts FitFacts2.
Open Scope R_scope.
#[local] Arguments update_model : simpl never.
#[local] Arguments jax_component : simpl never.

Definition tracked (m : mjmodel) (c : comp) : Prop :=
  exists c0 os, constructed c0 /\ wf_arrays (c_at c0) /\ Forall (call_with (eq m)) os /\ Forall wf_call os /\ binds_ok os c0 /\ history os c0 = c.
Lemma binds_snoc os o c : binds_ok os c -> (match o with OpModel m => fst (update_model m (history os c)) = Ok tt | _ => True end) -> binds_ok (os ++ [o]) c.
Proof. revert c. induction os as [|x os IH]; intros c; cbn; [auto|]. intros [A B] C. split; [exact A|]. now apply IH. Qed.
Lemma tracked_after m o c : tracked m c -> call_with (eq m) o -> wf_call o -> (match o with OpModel m' => fst (update_model m' c) = Ok tt | _ => True end) -> tracked m (after o c).
Proof.
  intros (c0 & os & Hc & Hw & Ho & Hf & Hb & <-) H1 H2 H3. exists c0, (os ++ [o]). split; [exact Hc|]. split; [exact Hw|]. split; [apply Forall_app; auto|]. split; [apply Forall_app; auto|]. split; [now apply binds_snoc|].
  now rewrite history_app.
Qed.
Lemma after_read c : after OpReadJax c = snd (jax_component c).
Proof. unfold after. cbn. unfold ignore, mbind. destruct (jax_component c) as [[j|e] c']; reflexivity. Qed.
Lemma tracked_read m c : tracked m c -> tracked m (snd (jax_component c)).
Proof. intros H. rewrite <- after_read. apply tracked_after; cbn; auto. Qed.
Lemma tracked_compile m l : forall cs, Forall (tracked m) cs -> Forall (tracked m) (snd (compile_all l cs)).
Proof.
  induction l as [|(n, i) l IH]; intros cs H; cbn [compile_all]; [exact H|]. destruct (nth_error cs i) as [c|] eqn:E; [|exact H].
  assert (Hc : tracked m c) by (rewrite Forall_forall in H; apply H; eapply nth_error_In; eauto).
  pose proof (tracked_read m c Hc) as T. destruct (jax_component c) as [[j|e] c']; cbn [snd] in *; [|now apply Forall_replace].
  specialize (IH (replace_nth i c' cs) (Forall_replace _ _ _ _ T H)). destruct (compile_all l (replace_nth i c' cs)) as [[js|e] cs']; exact IH.
Qed.
Lemma tracked_step m o w : legal o -> single m o -> proper o -> (forall pi p, nth_error (w_probs w) pi = Some p -> p_model p = m) ->
  (binding o -> (exists r, fst (step o w) = Ok r) \/ snd (step o w) = w) -> Forall (tracked m) (w_comps w) -> Forall (tracked m) (w_comps (snd (step o w))).
Proof.
  intros Hl Hs Hp Hm Hb Ht. destruct o; cbn [step] in *; unfold component, task, barrier in *; rewrite ?lookup_world; try exact Ht.
  - cbn. apply Forall_app. split; [exact Ht|]. constructor; [|constructor]. exists c, []. repeat split; try assumption; try constructor; apply Hp.
  - destruct (new_problem m0 vmin vmax); exact Ht.
  - destruct (nth_error (w_comps w) ci) as [c0|] eqn:E0; [|exact Ht].
    assert (Hc : tracked m c0) by (rewrite Forall_forall in Ht; apply Ht; eapply nth_error_In; eauto).
    destruct (run_cop o c0) as [r c1] eqn:Er.
    assert (A : c1 = after o c0) by (unfold after; now rewrite Er).
    assert (B : (forall m', o = OpModel m' -> r = Ok tt) -> tracked m c1).
    { intros Hr. rewrite A. apply tracked_after; [exact Hc| |exact Hp|].
      - destruct o; cbn in *; auto.
      - destruct o; auto. specialize (Hr _ eq_refl). change (run_cop (OpModel m0) c0) with (update_model m0 c0) in Er. rewrite Er. exact Hr. }
    cbn [snd set_comp w_comps]. destruct o; try (apply Forall_replace; [apply B; discriminate|exact Ht]).
    destruct (Hb I) as [[x Hx]|Hx].
    + apply Forall_replace; [|exact Ht]. apply B. intros m' _. cbn in Hx. destruct r as [[]|]; [reflexivity|discriminate].
    + cbn [snd] in Hx. assert (X : w_comps (set_comp w ci c1) = w_comps w) by (now rewrite Hx). cbn in X. rewrite X. exact Ht.
  - unfold add_component in *. destruct (nth_error (w_probs w) pi) as [p|] eqn:Ep; [|exact Ht]. destruct (nth_error (w_comps w) ci) as [c0|] eqn:E0; [|exact Ht]. destruct (has_name _ _); [exact Ht|].
    rewrite (Hm _ _ Ep) in *.
    assert (Hc : tracked m c0) by (rewrite Forall_forall in Ht; apply Ht; eapply nth_error_In; eauto).
    pose proof (tracked_after m (OpModel m) c0 Hc eq_refl I) as T. unfold after in T. change (run_cop (OpModel m) c0) with (update_model m c0) in T.
    destruct (update_model m c0) as [[[]|e] c1]; cbn [fst snd] in *.
    + apply Forall_replace; [now apply T|exact Ht].
    + destruct (Hb I) as [[x Hx]|Hx]; [discriminate|]. rewrite Hx. exact Ht.
  - unfold remove_component. destruct (nth_error _ pi); [|exact Ht]. destruct (has_name _ _); exact Ht.
  - destruct (nth_error _ pi); [|exact Ht]. destruct (update_v_min _ _); exact Ht.
  - destruct (nth_error _ pi); [|exact Ht]. destruct (update_v_max _ _); exact Ht.
  - unfold compile. destruct (nth_error _ pi) as [p|]; [|exact Ht]. pose proof (tracked_compile m (p_comps p) _ Ht) as T. destruct (compile_all _ _) as [[js|e] cs]; exact T.
Qed.
Lemma state_snoc os o : state (os ++ [o]) = snd (step o (state os)).
Proof. unfold state, run. now rewrite fold_left_app. Qed.
Lemma tracked_always m os : tidy m os -> Forall (tracked m) (w_comps (state os)).
Proof.
  intros (Hm & Hl & Hs & Hw & Hp & Hb). induction os as [|o os IH] using rev_ind; [constructor|].
  apply Forall_app in Hl, Hs, Hw, Hp. destruct Hl as [Hl Hl1], Hs as [Hs Hs1], Hw as [Hw _], Hp as [Hp Hp1].
  inversion Hl1; subst. inversion Hs1; subst. inversion Hp1; subst. rewrite state_snoc. apply tracked_step; auto.
  - intros pi p. apply (settled_always m os (sound_wf _ Hm) Hs).
  - intros Ho. specialize (Hb (List.length os) o). rewrite nth_error_app2, Nat.sub_diag in Hb by lia. specialize (Hb eq_refl Ho).
    rewrite firstn_app, Nat.sub_diag, firstn_all, firstn_O, app_nil_r in Hb. exact Hb.
  - apply IH; auto. intros k x Hk Hx. specialize (Hb k x). assert (Hlt : (k < List.length os)%nat) by (apply nth_error_Some; congruence).
    rewrite nth_error_app1 in Hb by exact Hlt. specialize (Hb Hk Hx). rewrite firstn_app in Hb. replace (k - List.length os)%nat with 0%nat in Hb by lia. rewrite firstn_O, app_nil_r in Hb. exact Hb.
Qed.

Lemma compiled_problem os pi pd : compiled_by os pi pd -> exists p, problem_of (state os) pi p.
Proof. unfold compiled_by. cbn. unfold compile. intros H. fold (state os) in H. unfold problem_of. destruct (nth_error (w_probs (state os)) pi); [eauto|discriminate]. Qed.
Lemma program_components m os pi pd : tidy m os -> compiled_by os pi pd ->
  jd_model pd = m /\ List.length (jd_vmin pd) = m_nv m /\ List.length (jd_vmax pd) = m_nv m /\ Forall (fun j => api_component j /\ j_model j = m) (comps_of pd).
Proof.
  intros Ht Hc. pose proof (tracked_always m os Ht) as T. destruct Ht as (Hm & Hl & Hs & Hw & Hp & Hb).
  destruct (compiled_problem _ _ _ Hc) as (p & Pp). destruct (compile_spec os pi p Hl Pp) as (S & _). apply S in Hc. destruct Hc as (E1 & E2 & E3 & F).
  assert (Mp : p_model p = m) by (apply (settled_always m os (sound_wf _ Hm) Hs) with pi; exact Pp).
  destruct (limits_length os pi p Hw Pp) as [L1 L2]. rewrite Mp in *. split; [exact E1|]. split; [congruence|]. split; [congruence|].
  unfold comps_of. rewrite Forall_map. clear - F T Hm. induction F as [|x r l js (_ & c & Hc & Hj) _ IH]; constructor; auto.
  rewrite Forall_forall in T. destruct (T c (nth_error_In _ _ Hc)) as (c0 & cs & H1 & H2 & H3 & H4 & H5 & <-).
  split; [|symmetry; apply (history_bound (eq m) c0 cs (snd r)); auto; intros; subst; now apply sound_wf].
  exists c0, cs. repeat split; auto; try apply H2. apply (calls_weaken (eq m)); [intros; now subst|exact H3].
Qed.
Lemma shapes_fits L d j m : j_model j = m -> shapes_fit L d j -> fits L (m_nv m) d j.
Proof.
  intros <- (n & e & J & _ & E & <- & EJ & MJ & G & W). exists J, e. repeat split; auto; try apply MJ. destruct (j_ext j) as [| |act [|] ? ?]; auto.
Qed.
Lemma program_fits L m os pi pd d : tidy m os -> compiled_by os pi pd -> sound_lib L m -> wf_data m d -> Forall (accepted L d) (comps_of pd) ->
  Forall (shapes_fit L d) (comps_of pd) /\ Forall (fits L (m_nv m) d) (comps_of pd).
Proof.
  intros Ht Hc HL Hd Ha. destruct (program_components m os pi pd Ht Hc) as (_ & _ & _ & F). rewrite !Forall_forall in *.
  assert (K : forall j, In j (comps_of pd) -> shapes_fit L d j /\ j_model j = m). { intros j Hj. destruct (F j Hj) as [A B]. split; [|exact B]. apply component_fits; rewrite ?B; auto. }
  split; intros j Hj; destruct (K j Hj); auto. now apply shapes_fits.
Qed.
Lemma program_assembles L m os pi pd d : tidy m os -> compiled_by os pi pd -> sound_lib L m -> wf_data m d -> Forall (accepted L d) (comps_of pd) ->
  (forall j J, In j (comps_of pd) -> is_barrier j = true -> jacobian L j d = Ok J -> frob2 J <> 0) -> exists Q, assemble L m pd d = Ok Q.
Proof.
  intros Ht Hc HL Hd Ha Hz. destruct (program_components m os pi pd Ht Hc) as (E & _). destruct (program_fits L m os pi pd d Ht Hc HL Hd Ha) as [_ F]. apply assemble_finite; [now rewrite E|now rewrite E|exact Hz].
Qed.

Lemma mapM_err {A B} (f : A -> res B) l e : mapM f l = Err e -> exists x, In x l /\ f x = Err e.
Proof.
  induction l as [|x l IH]; cbn; [discriminate|]. destruct (f x) as [y|e'] eqn:E; cbn [bind].
  - destruct (mapM f l) as [r|e'']; cbn [bind]; [discriminate|]. intros H. injection H as ->. destruct (IH eq_refl) as (z & A1 & A2). exists z. auto.
  - intros H. injection H as ->. exists x. auto.
Qed.
Lemma piece_only_nonfinite L nv d j e : fits L nv d j -> cpiece L nv nv d j = Err e -> e = NonFinite.
Proof.
  intros Hf He. assert (Hf2 := Hf). destruct Hf as (J & v & HJ & _). destruct (Req_EM_T (frob2 J) 0) as [Z|N].
  - destruct (is_barrier j) eqn:Eb; [rewrite (piece_zero L nv d j J Eb HJ Z) in He; congruence|].
    destruct (piece_fits L nv d j Hf2) as (k & Hk & _); congruence.
  - destruct (piece_fits L nv d j Hf2) as (k & Hk & _); congruence.
Qed.
Lemma assemble_only_nonfinite L sm pd d e : m_nv sm = m_nv (jd_model pd) -> Forall (fits L (m_nv (jd_model pd)) d) (comps_of pd) -> assemble L sm pd d = Err e -> e = NonFinite.
Proof.
  intros Hnv Hf He. destruct (mapM (cpiece L (m_nv (jd_model pd)) (m_nv (jd_model pd)) d) (comps_of pd)) as [ks|e'] eqn:E.
  - assert (X : exists Q, assemble L sm pd d = Ok Q); [|destruct X; congruence]. apply assemble_finite; auto. intros j J Hj Hb HJ Z.
    destruct (In_nth _ _ j Hj) as (i & Hi & Ei).
    destruct (nth_error ks i) as [k|] eqn:Ek.
    + pose proof (mapM_nth _ _ _ j k i E Hi) as X. rewrite Ei, (piece_zero L _ d j J Hb HJ Z) in X. discriminate.
    + apply nth_error_None in Ek. rewrite (mapM_length _ _ _ E) in Ek. lia.
  - destruct (mapM_err _ _ _ E) as (j & Hj & Ej). rewrite Forall_forall in Hf. pose proof (piece_only_nonfinite _ _ _ _ _ (Hf j Hj) Ej) as ->.
    unfold assemble in He. cbv zeta in He. rewrite add_components_pieces in He by apply start_shape. fold (comps_of pd) in He. rewrite Hnv, E in He. cbn [bind] in He. congruence.
Qed.
Lemma program_solves L So m os pi pd q v : tidy m os -> compiled_by os pi pd -> sound_lib L m -> t_shape q = [m_nq m] ->
  let d := update L m (t_data q) in wf_data m d -> Forall (accepted L d) (comps_of pd) ->
  (exists Q, assemble L m pd d = Ok Q /\ solve L So m q v pd = Ok (So Q, sol_primal (So Q))) \/
  (solve L So m q v pd = Err NonFinite /\ exists j J, In j (comps_of pd) /\ is_barrier j = true /\ jacobian L j d = Ok J /\ frob2 J = 0).
Proof.
  cbv zeta. intros Ht Hc HL Hq Hd Ha. destruct (program_components m os pi pd Ht Hc) as (E & _). destruct (program_fits L m os pi pd _ Ht Hc HL Hd Ha) as [_ F]. rewrite <- E in F at 1.
  unfold solve. rewrite Hq, Nat.eqb_refl. unfold solve_from_data. destruct (assemble L m pd (update L m (t_data q))) as [Q|e] eqn:EA; [left; exists Q; auto|right]. cbn [bind].
  assert (Hnv : m_nv m = m_nv (jd_model pd)) by now rewrite E. rewrite (assemble_only_nonfinite L m pd _ e Hnv F EA). split; [reflexivity|].
  destruct (Exists_dec (fun j => is_barrier j = true /\ exists J, jacobian L j (update L m (t_data q)) = Ok J /\ frob2 J = 0) (comps_of pd)) as [X|X].
  { intros j. destruct (is_barrier j); [|right; intros [C _]; discriminate]. destruct (jacobian L j _) as [J|] eqn:EJ; [|right; intros (_ & J & C & _); congruence].
    destruct (Req_EM_T (frob2 J) 0) as [Z|N]; [left; split; [reflexivity|exists J; auto]|right; intros (_ & J' & C & Z); congruence]. }
  - apply Exists_exists in X. destruct X as (j & Hj & Hb & J & HJ & Z). exists j, J. auto.
  - exfalso. assert (Y : exists Q, assemble L m pd (update L m (t_data q)) = Ok Q); [|destruct Y; congruence]. apply assemble_finite; auto. intros j J Hj Hb HJ Z. apply X. apply Exists_exists. exists j. split; [exact Hj|]. split; [exact Hb|]. exists J. auto.
Qed.
