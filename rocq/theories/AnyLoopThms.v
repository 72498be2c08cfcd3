(** Proofs of C96. *)
From Verif Require Import Base Lin LinFacts Mjx Typing Component Problem SpecComponent SpecJoint SpecHistory SpecTyping SpecCollision SpecTree SpecShape SpecContact SpecValue SpecProblem SpecQP SpecFit SpecTrace SpecSetup.
From Verif Require Import ComponentFacts ComponentFacts2 ApiSteps JointFacts BindFacts BindFacts2 BindFacts3 CoreFacts ProblemFacts CompThms BindThms ProbThms ShareFacts FitFacts FitFacts3 SetupFacts SetupFacts2 SetupFacts3 SetupFacts4 Conf JaxComponents LocalIK SpecMotion SpecLoop SpecSolve SpecClosed MotionFacts MotionFacts2 LoopFacts QPFacts QPThms QPThms2 QPThms4 SolveFacts SolveThms DescentThms TraceFacts ClosedFacts ClosedFacts2 ClosedThms SpecGlobal GlobalIK SpecGLoop EvalFacts GLoopThms SpecAnyLoop.
Open Scope R_scope.
#[local] Arguments update_model : simpl never.
#[local] Arguments jax_component : simpl never.
#[local] Arguments build_component : simpl never.

Lemma made_soft m F c e : fst (update_model m c) = Ok tt -> made_of m F c e -> soft_component c -> is_hard (snd e) = false.
Proof.
  intros Ok_ (_ & SC & c' & Pb & _ & _ & _ & _ & _ & K) S. destruct Pb as (_ & _ & _ & _ & _ & _ & P7). destruct K as (_ & _ & _ & _ & K5). unfold same_class in SC. unfold soft_component in S. unfold is_hard.
  destruct (a_ext (c_at c)) as [? ? kt|? kb|x h so kc] eqn:E; [destruct kt; destruct (j_ext (snd e)) as [? ? []|? []|? ? ? []]; tauto|destruct kb; destruct (j_ext (snd e)) as [? ? []|? []|? ? ? []]; tauto|].
  destruct h; [contradiction|].
  assert (B : exists x, a_ext (c_at (bound m c)) = XConstraint x false so kc).
  { destruct kc as [|f]; [|destruct (custom_dim m c) as [_ B]; [right; right; eauto|rewrite B; eauto]].
    destruct (equality_bind_any m c x false so E) as [[k X]|X]; unfold bound; rewrite X; cbn; rewrite E; eauto. }
  destruct B as [x' B]. rewrite B in K5. destruct (j_ext (snd e)) as [|? |a h W k] eqn:Ej; auto. destruct h; [|reflexivity]. exfalso. inversion P7 as [| | | | | | | | |? ? ? ? Y|? ? ? ? ? Y]; subst; rewrite Y in K5; cbn in K5; congruence.
Qed.

Section Loop.
Context (m : mjmodel) (lo hi : tensor) (cs : list comp).
Context (Hm : sound_model m) (Wl : wf_tensor lo) (Wh : wf_tensor hi) (Hc : Forall constructed cs) (Hw : Forall (fun c => wf_arrays (c_at c)) cs).
Context (Fl : limit_fits m lo) (Fh : limit_fits m hi) (Nd : NoDup (map nm cs)) (Hs : Forall (fun c => exists d, suits m c d) cs) (Hpl : Forall (plain m) cs).
Let prog := setup m lo hi cs.

Lemma any_problem os : Forall loop_call os -> exists pd, compiled_by (prog ++ os) 0 pd /\ tidy m (prog ++ os) /\ jd_model pd = m /\ Forall2 (made_of m (Forall keeps_limits os)) cs (jd_comps pd).
Proof.
  intros Ho. destruct (calls_split os Ho) as (O1 & O2 & O3). destruct (loop_compiles m lo hi cs os Hm Wl Wh Hc Hw Fl Fh Nd Hs O1) as (pd & Q1 & Q2 & _). exists pd.
  split; [exact Q1|]. split; [now apply loop_tidy|]. split; [exact Q2|]. now apply loop_made with lo hi.
Qed.
Lemma any_turn os L q : Forall loop_call os -> sound_lib L m -> List.length q = m_nq m -> wf_data m (update L m q) -> Forall (evaluates L m q) cs ->
  exists pd, compiled_by (prog ++ os) 0 pd /\
  ((exists Q, assemble L m pd (update L m q) = Ok Q /\ List.length (qp_c Q) = m_nv m /\ forall So s, solve L So m (tvec q) s pd = Ok (So Q, sol_primal (So Q))) \/
   ((forall So s, solve L So m (tvec q) s pd = Err NonFinite) /\ idle_barrier L (update L m q) pd)).
Proof.
  intros Ho HL Hq Hd Hev. destruct (any_problem os Ho) as (pd & Hpd & T1 & Em & _). exists pd. split; [exact Hpd|].
  pose proof (all_accepted m lo hi cs Hm Wl Wh Hc Hw Fl Fh Nd Hs Hpl os pd L q Ho Hpd Hev Hd) as Ha.
  assert (Sq : t_shape (tvec q) = [m_nq m]) by (cbn; now rewrite Hq).
  assert (Es : forall So s, solve L So m (tvec q) s pd = solve_from_data L So m s pd (update L m q)) by (intros; unfold solve; rewrite Sq, Nat.eqb_refl; reflexivity).
  destruct (program_solves L (fun _ => mkSol [] [] []) m (prog ++ os) 0 pd (tvec q) [] T1 Hpd HL Sq Hd Ha) as [(Q & A & _)|(E & X)].
  - left. exists Q. split; [exact A|]. split; [rewrite <- Em; apply (hessian_shape L m pd (update L m q) Q); [congruence|exact A]|]. intros So s. rewrite Es. unfold solve_from_data. cbn [t_data tvec] in A. rewrite A. reflexivity.
  - right. split; [|exact X]. intros So s. rewrite Es in E |- *. unfold solve_from_data in *. destruct (assemble L m pd (update L m q)); [discriminate|]. cbn in *. congruence.
Qed.
Lemma any_loop L So dt turns : sound_lib L m -> (forall q, List.length q = m_nq m -> wf_data m (update L m q) /\ Forall (evaluates L m q) cs) -> one_entry_each So -> Forall (Forall loop_call) turns ->
  forall os q s, Forall loop_call os -> List.length q = m_nq m ->
  (exists tr qn, control_loop L So m dt (prog ++ os) turns q s tr qn /\ List.length tr = List.length turns /\ List.length qn = m_nq m) \/
  (exists ts os' ts' tr q' pd, turns = ts ++ os' :: ts' /\ control_loop L So m dt (prog ++ os) ts q s tr q' /\ List.length tr = List.length ts /\ List.length q' = m_nq m /\
     compiled_by ((prog ++ os) ++ calls_of ts ++ os') 0 pd /\ (forall s', solve L So m (tvec q') s' pd = Err NonFinite) /\ idle_barrier L (update L m q') pd).
Proof.
  intros HL Hd Hone. pose proof Hm as ((Wj & _) & _). induction turns as [|o turns IH]; intros Ht os q s Ho Hq; [left; exists [], q; repeat split; [constructor|exact Hq]|].
  assert (Ho' : Forall loop_call (os ++ o)) by (apply Forall_app; split; [exact Ho|exact (Forall_inv Ht)]). destruct (Hd q Hq) as [Hd1 Hd2].
  destruct (any_turn (os ++ o) L q Ho' HL Hq Hd1 Hd2) as (pd & Hpd & [(Q & HQ & Lc & Hso)|(E & X)]).
  - assert (Lv : List.length (sol_primal (So Q)) = m_nv m) by (rewrite Hone; exact Lc).
    destruct (integrate_spec m Wj q _ dt Hq Lv) as (q1 & Hi & L1 & _).
    assert (St : forall ts tr qn, control_loop L So m dt (prog ++ (os ++ o) ++ [WCompile 0]) ts q1 (sol_primal (So Q)) tr qn -> control_loop L So m dt (prog ++ os) (o :: ts) q s ((q, pd, sol_primal (So Q)) :: tr) qn).
    { intros ts tr qn C. apply (loop_turn L So m dt (prog ++ os) o ts q s pd (So Q) (sol_primal (So Q)) q1 tr qn); [rewrite <- app_assoc; exact Hpd|apply Hso|exact Hi|]. rewrite <- !app_assoc. rewrite <- !app_assoc in C. exact C. }
    destruct (IH (Forall_inv_tail Ht) ((os ++ o) ++ [WCompile 0]) q1 (sol_primal (So Q))) as [(tr & qn & C & Lt & Ln)|(ts & os' & ts' & tr & q' & pd' & E1 & C & Lt & Ln & Hpd' & E & X)]; [apply Forall_app; split; [exact Ho'|repeat constructor]|exact L1| |].
    + left. exists ((q, pd, sol_primal (So Q)) :: tr), qn. split; [now apply St|]. split; [cbn; congruence|exact Ln].
    + right. exists (o :: ts), os', ts', ((q, pd, sol_primal (So Q)) :: tr), q', pd'. split; [cbn; congruence|]. split; [now apply St|]. split; [cbn; congruence|]. split; [exact Ln|]. split; [|auto].
      unfold calls_of in *. cbn [map List.concat]. rewrite <- !app_assoc in Hpd' |- *. exact Hpd'.
  - right. exists [], o, turns, [], q, pd. split; [reflexivity|]. split; [constructor|]. split; [reflexivity|]. split; [exact Hq|]. split; [cbn; rewrite <- app_assoc; exact Hpd|]. auto.
Qed.

(** Joint barriers on at least one joint never have a vanishing Jacobian. *)
Lemma tame_bar os pd L d : Forall loop_call os -> compiled_by (prog ++ os) 0 pd -> Forall (tame m) cs -> ~ idle_barrier L d pd.
Proof.
  intros Ho Hpd Htr (j & J & Hj & Hb & EJ & Z). destruct (any_problem os Ho) as (pd' & Q1 & _ & _ & Mk). assert (pd' = pd) by (unfold compiled_by in *; congruence). subst pd'.
  destruct (comp_in cs pd j _ Mk Hj) as (c & e & Ic & Ee & _ & SC & c' & Pb & Pl & Jd & _ & _ & _ & K). subst j. rewrite Forall_forall in Htr. specialize (Htr c Ic). pose proof Hm as ((Wj & _) & _).
  unfold tame in Htr. unfold same_class in SC. destruct (a_ext (c_at c)) as [? ? k|s kb|? ? ? k] eqn:E; [destruct k; unfold is_barrier in Hb; destruct (j_ext (snd e)) as [? ? []|? []|? ? ? []]; try contradiction; discriminate| |destruct k; unfold is_barrier in Hb; destruct (j_ext (snd e)) as [? ? []|? []|? ? ? []]; try contradiction; discriminate].
  destruct kb as [|jb| |]; try contradiction.
  assert (X : exists s l h x, j_ext (snd e) = JBarrier s (JBJoint l h x)). { destruct (j_ext (snd e)) as [? ? []|? []|? ? ? []]; try contradiction. eauto. }
  pose proof (joint_dims_frob m c' (snd e) L d J Wj Jd Pb X EJ Z) as D0.
  destruct Pb as (_ & P2 & _ & _ & _ & _ & P7). destruct X as (s1 & l1 & h1 & x1 & X). rewrite X in P7. inversion P7 as [| | | | | |? ? ? ? ? Y| | | |]; subst.
  unfold joint_dims in Jd. rewrite Y in Jd. cbn [jb_final] in Jd. destruct Jd as [Jd _]. destruct K as (_ & _ & _ & _ & K). rewrite Y in K.
  destruct (made_ok m cs Hm Hc Hw Hs c Ic) as (dd & D & Ok_).
  destruct (joint_barrier_bind m c s jb Wj E) as [_ B2]. unfold suits in D. rewrite E in D. destruct D as (_ & F & _). destruct (B2 F) as (_ & _ & _ & _ & _ & _ & _ & B). specialize (B Ok_).
  unfold bound in K. rewrite B in K. cbn in K. injection K as K1 K2. subst fm. rewrite P2, Jd in D0. destruct (selected m (jb_final jb)); [now apply Htr|]. cbn [List.length] in D0. lia.
Qed.

(** A joint barrier among the components, at a configuration within its limits. *)
Lemma bar_turn os dt L q c e s0 jb : Forall keeps_limits os -> keeps_scalars L m -> List.length q = m_nq m -> Forall (mild dt) cs -> Forall (in_limits m q) cs ->
  In c cs -> made_of m (Forall keeps_limits os) c e -> a_ext (c_at c) = XBarrier s0 (BJoint jb) ->
    let lo' := lower_limits m jb in let hi' := upper_limits m jb in let h := slack lo' hi' (sel_pos m (jb_final jb) q) in
    is_barrier (snd e) = true /\ Forall (fun a => 0 <= a /\ a * dt <= 1) (j_gain (snd e)) /\ (forall x, j_gain_fn (snd e) x = x) /\
    exists J, call L (snd e) (update L m q) = Ok h /\ jacobian L (snd e) (update L m q) = Ok J /\ vnonneg h /\ List.length (j_gain (snd e)) = List.length h /\
      forall v q', List.length v = m_nv m -> integrate m q v dt = Ok q' ->
        slack lo' hi' (sel_pos m (jb_final jb) q') = vadd h (vscale dt (mv J v)) /\ (vnonneg (slack lo' hi' (sel_pos m (jb_final jb) q')) -> within lo' hi' (sel_pos m (jb_final jb) q')).
Proof.
  intros Hk Hks Hq Hmi Hin Ic Mk E lo' hi' h. destruct (made_ok m cs Hm Hc Hw Hs c Ic) as (dd & D & Ok_).
  assert (Mk' : made_of m True c e). { destruct Mk as (M1 & M2 & c' & M3 & M4 & M5 & M6 & M7). split; [exact M1|]. split; [exact M2|]. exists c'. repeat (split; [first [exact M3|exact M4|exact M5|intros _; apply M6, Hk]|]). exact M7. }
  rewrite Forall_forall in Hpl, Hmi, Hin. pose proof (Hmi c Ic) as Mi. unfold mild in Mi. rewrite E in Mi. destruct Mi as [Mi1 Mi2]. specialize (Hin c Ic). unfold in_limits in Hin. rewrite E in Hin.
  destruct (bar_made m c e s0 jb dd (fun a => 0 <= a /\ a * dt <= 1) Hm D Ok_ (Hpl c Ic) Mk' E) as (M & F & Lim & Ll & Lu & G & Gf).
  assert (Hag : agrees (j_model (snd e)) q (d_qpos (update L m q))) by (rewrite M; now apply Hks).
  destruct (jb_motion (jb_final jb) (snd e) _ _ F Lim L q (update L m q)) as (J & Ec & EJ & Enn & _ & Eg & Mo); [now rewrite M|exact Hag|now rewrite M|now rewrite M|]. rewrite M in *.
  split; [destruct F as (_ & _ & _ & _ & _ & s1 & l1 & h1 & X); unfold is_barrier; now rewrite X|]. split; [now apply G|]. split; [now rewrite Gf|].
  exists J. split; [exact Ec|]. split; [exact EJ|]. split; [now apply Enn|]. split; [exact Eg|].
  intros v' q' Lv' Hi'. destruct (Mo v' dt Lv') as (q2 & Hi2 & Lq2 & Es & _). rewrite Hi' in Hi2. injection Hi2 as <-. split; [exact Es|].
  destruct (jb_motion (jb_final jb) (snd e) _ _ F Lim L q' (update L m q')) as (_ & _ & _ & Enn' & _); [now rewrite M|rewrite M; now apply Hks|now rewrite M|now rewrite M|]. rewrite M in Enn'. exact (proj1 Enn').
Qed.
(** In a turn within the limits, with soft constraints and joint barriers only, rest is admissible. *)
Lemma soft_turn os pd dt L q : Forall loop_call os -> Forall keeps_limits os -> below_zero lo -> above_zero hi -> Forall (mild dt) cs -> sound_lib L m -> keeps_scalars L m ->
  Forall (tame m) cs -> Forall soft_component cs -> List.length q = m_nq m -> wf_data m (update L m q) -> Forall (evaluates L m q) cs -> Forall (in_limits m q) cs -> compiled_by (prog ++ os) 0 pd ->
  admissible L (update L m q) pd (vzero (m_nv m)).
Proof.
  intros Ho Hk Hlo Hhi Hmi HL Hks Htm Hso Hq Hd Hev Hin Hpd. destruct (calls_split os Ho) as (O1 & O2 & O3). destruct (any_problem os Ho) as (pd' & Q1 & T1 & T2 & T5). assert (pd' = pd) by (unfold compiled_by in *; congruence). subst pd'.
  destruct (loop_brackets m lo hi cs os pd Hm Wl Wh Hc Hw Fl Fh Nd Hs Hlo Hhi O1 Hk Hpd) as [B1 B2].
  destruct (program_components m (prog ++ os) 0 pd T1 Hpd) as (_ & L1 & L2 & _).
  pose proof (all_accepted m lo hi cs Hm Wl Wh Hc Hw Fl Fh Nd Hs Hpl os pd L q Ho Hpd Hev Hd) as Ha.
  destruct (program_shaped L m (prog ++ os) 0 pd T1 Hpd HL (update L m q) Hd Ha) as (_ & F & _). rewrite Forall_forall in Htm, Hso. replace (vzero (m_nv m)) with (vzero (m_nv (jd_model pd))) by (now rewrite T2). apply rest_admissible; [exact F|].
  split; [rewrite T2; now apply vle_consts|]. split; [rewrite T2; now apply vge_consts|]. apply Forall_forall. intros j Hj.
  destruct (comp_in cs pd j _ T5 Hj) as (c & e & Ic & <- & Mk). pose proof Mk as (_ & SC & _). split.
  - intros Hb. specialize (Htm c Ic). unfold tame in Htm. unfold same_class in SC. unfold is_barrier in Hb.
    destruct (a_ext (c_at c)) as [? ? k|s0 kb|? ? ? k] eqn:E; [destruct k; destruct (j_ext (snd e)) as [? ? []|? []|? ? ? []]; try contradiction; discriminate| |destruct k; destruct (j_ext (snd e)) as [? ? []|? []|? ? ? []]; try contradiction; discriminate].
    destruct kb as [|jb| |]; try contradiction. destruct (bar_turn os dt L q c e s0 jb Hk Hks Hq Hmi Hin Ic Mk E) as (_ & G & Gf & J & Ec & _ & Nn & _).
    split; [eapply Forall_impl; [|exact G]; intros a [X _]; exact X|]. split; [intros x Hx; now rewrite Gf|]. intros e0 He0. rewrite Ec in He0. now injection He0 as <-.
  - destruct (made_ok m cs Hm Hc Hw Hs c Ic) as (dd & D & Ok_). rewrite (made_soft m _ c e Ok_ Mk (Hso c Ic)). discriminate.
Qed.
Lemma any_safe os pd L So dt q s sol v q1 : Forall loop_call os -> Forall keeps_limits os -> Forall (mild dt) cs -> 0 <= dt ->
  sound_lib L m -> keeps_scalars L m -> List.length q = m_nq m -> wf_data m (update L m q) -> Forall (evaluates L m q) cs -> Forall (in_limits m q) cs ->
  compiled_by (prog ++ os) 0 pd -> exact_turn L So m (q, pd, v) -> (exists w, admissible L (update L m q) pd w) -> solve L So m (tvec q) s pd = Ok (sol, v) -> integrate m q v dt = Ok q1 ->
  best L (update L m q) pd v /\ Forall (in_limits m q1) cs /\ List.length q1 = m_nq m.
Proof.
  intros Ho Hk Hmi Hdt HL Hks Hq Hd Hev Hin Hpd Hex Hadm Hso Hi. pose proof Hm as ((Wj & _) & _).
  destruct (any_problem os Ho) as (pd' & Q1 & T1 & T2 & T5). assert (pd' = pd) by (unfold compiled_by in *; congruence). subst pd'.
  pose proof (all_accepted m lo hi cs Hm Wl Wh Hc Hw Fl Fh Nd Hs Hpl os pd L q Ho Hpd Hev Hd) as Ha.
  assert (Sq : t_shape (tvec q) = [m_nq m]) by (cbn; now rewrite Hq).
  assert (Bst : best L (update L m q) pd v).
  { destruct (program_best L m (prog ++ os) 0 pd T1 Hpd HL So (tvec q) s Sq Hd Ha Hex Hadm) as [(s' & v' & E1 & B)|(E1 & _)]; rewrite Hso in E1; [injection E1 as <- <-; exact B|discriminate]. }
  split; [exact Bst|]. destruct Bst as [(Lv & _ & _ & Cb) _]. rewrite T2 in Lv.
  destruct (integrate_spec m Wj q v dt Hq Lv) as (q2 & Hi2 & Lq2 & _). rewrite Hi in Hi2. injection Hi2 as <-.
  split; [|exact Lq2].
  apply Forall_forall. intros c Ic. unfold in_limits. destruct (a_ext (c_at c)) as [|s0 [|jb| |]|] eqn:E; auto.
  apply In_nth_error in Ic as [i Ei]. destruct (Forall2_nth _ _ _ _ _ T5 Ei) as (e & Ee & Mk). apply nth_error_In in Ei.
  destruct (bar_turn os dt L q c e s0 jb Hk Hks Hq Hmi Hin Ei Mk E) as (Hb & G & Gf & J & Ec & EJ & Nn & Lg & Mo). destruct (Mo v q1 Lv Hi) as [Es W]. apply W. rewrite Es.
  rewrite Forall_forall in Cb. assert (Ij : In (snd e) (comps_of pd)) by (unfold comps_of; apply in_map; eapply nth_error_In; eauto).
  destruct (Cb (snd e) Ij) as [C1 _]. specialize (C1 Hb J _ EJ Ec). unfold gained in C1. rewrite (map_ext _ (fun x => x)) in C1 by exact Gf.
  apply (vnonneg_vle _ _ (cbf_step _ _ _ dt Hdt Lg ltac:(eapply Forall_impl; [|exact G]; intros a [Y1 Y2]; split; [now apply Rmult_le_pos|exact Y2]) C1)).
  apply vnonneg_vmul; [|exact Nn]. rewrite Forall_map. eapply Forall_impl; [|exact G]. intros a [Y1 Y2]. lra.
Qed.
Lemma any_loop_safe L So dt : Forall (mild dt) cs -> 0 <= dt -> sound_lib L m -> keeps_scalars L m -> (forall q, List.length q = m_nq m -> wf_data m (update L m q) /\ Forall (evaluates L m q) cs) ->
  forall turns os q s tr qn, Forall (Forall loop_call) turns -> Forall (Forall keeps_limits) turns -> Forall loop_call os -> Forall keeps_limits os ->
  List.length q = m_nq m -> Forall (in_limits m q) cs -> control_loop L So m dt (prog ++ os) turns q s tr qn -> Forall (exact_turn L So m) tr ->
  Forall (possible_turn L m) tr \/ (below_zero lo /\ above_zero hi /\ Forall (tame m) cs /\ Forall soft_component cs) ->
  Forall (in_limits m qn) cs /\ Forall (fun t => let '(q, pd, v) := t in Forall (in_limits m q) cs /\ best L (update L m q) pd v) tr.
Proof.
  intros Hmi Hdt HL Hks Hd. induction turns as [|o turns IH]; intros os q s tr qn Ht Hkt Ho Hk Hq Hin C Hex Hp; inversion C as [|? ? ? ? ? pd sol v q1 tr' ? Hpd Hso Hi C']; subst.
  - split; [exact Hin|constructor].
  - assert (Ho' : Forall loop_call (os ++ o)) by (apply Forall_app; split; [exact Ho|exact (Forall_inv Ht)]).
    assert (Hk' : Forall keeps_limits (os ++ o)) by (apply Forall_app; split; [exact Hk|exact (Forall_inv Hkt)]).
    rewrite <- app_assoc in Hpd. pose proof (Forall_inv Hex) as Hex0. destruct (Hd q Hq) as [Hd1 Hd2].
    assert (Hadm : exists w, admissible L (update L m q) pd w).
    { destruct Hp as [Hp|(P1 & P2 & P3 & P4)]; [exact (Forall_inv Hp)|]. exists (vzero (m_nv m)). now apply (soft_turn (os ++ o) pd dt). }
    destruct (any_safe (os ++ o) pd L So dt q s sol v q1 Ho' Hk' Hmi Hdt HL Hks Hq Hd1 Hd2 Hin Hpd Hex0 Hadm Hso Hi) as (S1 & S2 & S3).
    assert (EC : control_loop L So m dt (prog ++ ((os ++ o) ++ [WCompile 0])) turns q1 v tr' qn) by (rewrite <- !app_assoc in C' |- *; exact C').
    destruct (IH ((os ++ o) ++ [WCompile 0]) q1 v tr' qn (Forall_inv_tail Ht) (Forall_inv_tail Hkt)) as (R1 & R2); auto.
    + apply Forall_app. split; [exact Ho'|repeat constructor].
    + apply Forall_app. split; [exact Hk'|repeat constructor].
    + exact (Forall_inv_tail Hex).
    + destruct Hp as [Hp|Hp]; [left; exact (Forall_inv_tail Hp)|right; exact Hp].
Qed.
End Loop.
