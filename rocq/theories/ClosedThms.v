(** Proofs of C94. *)
From Verif Require Import Base Lin LinFacts Mjx Typing Component Problem SpecComponent SpecJoint SpecHistory SpecTyping SpecCollision SpecTree SpecShape SpecContact SpecValue SpecProblem SpecQP SpecFit SpecTrace SpecSetup.
From Verif Require Import ComponentFacts ComponentFacts2 ApiSteps JointFacts BindFacts BindFacts2 BindFacts3 CoreFacts ProblemFacts CompThms BindThms ProbThms ShareFacts FitFacts FitFacts3 SetupFacts SetupFacts2 SetupFacts3 SetupFacts4 Conf JaxComponents LocalIK SpecMotion SpecLoop SpecSolve SpecClosed MotionFacts MotionFacts2 LoopFacts QPFacts QPThms QPThms2 QPThms4 SolveFacts SolveThms DescentThms TraceFacts ClosedFacts ClosedFacts2.
Open Scope R_scope.
#[local] Arguments update_model : simpl never.
#[local] Arguments jax_component : simpl never.
#[local] Arguments build_component : simpl never.

Lemma calls_split os : Forall loop_call os -> Forall steering os /\ Forall proper os /\ Forall plain_call os.
Proof. intros H. split; [|split]; (eapply Forall_impl; [|exact H]); intros o (A & B & C); assumption. Qed.
Lemma tracks_care m c j : tracks m c -> same_class c j -> ~ needs_care j.
Proof.
  unfold tracks, same_class, needs_care. destruct (a_ext (c_at c)) as [? ? []|? []|? ? ? []]; try contradiction; destruct (j_ext j) as [? ? []|? []|? ? ? []]; tauto.
Qed.
Lemma tracks_bar m c j : tracks m c -> same_class c j -> is_barrier j = true -> exists s jb, a_ext (c_at c) = XBarrier s (BJoint jb) /\ selected m (jb_final jb) <> [] /\ exists s l h x, j_ext j = JBarrier s (JBJoint l h x).
Proof.
  unfold tracks, same_class, is_barrier. destruct (a_ext (c_at c)) as [? ? []|? []|? ? ? []]; try contradiction; destruct (j_ext j) as [? ? []|? []|? ? ? []]; try contradiction; try discriminate.
  intros H _ _. repeat eexists. exact H.
Qed.
Lemma tracks_hard m c j : tracks m c -> same_class c j -> is_hard j = false.
Proof.
  unfold tracks, same_class, is_hard. destruct (a_ext (c_at c)) as [? ? []|? []|? ? ? []]; try contradiction; destruct (j_ext j) as [? ? []|? []|? ? ? []]; try contradiction; reflexivity.
Qed.

Section Loop.
Context (m : mjmodel) (lo hi : tensor) (cs : list comp).
Context (Hm : sound_model m) (Wl : wf_tensor lo) (Wh : wf_tensor hi) (Hc : Forall constructed cs) (Hw : Forall (fun c => wf_arrays (c_at c)) cs).
Context (Fl : limit_fits m lo) (Fh : limit_fits m hi) (Nd : NoDup (map nm cs)) (Hs : Forall (fun c => exists d, suits m c d) cs) (Hpl : Forall (plain m) cs) (Htr : Forall (tracks m) cs).
Let prog := setup m lo hi cs.

Lemma comp_in pd j (P : comp -> string * jaxc -> Prop) : Forall2 P cs (jd_comps pd) -> In j (comps_of pd) -> exists c e, In c cs /\ snd e = j /\ P c e.
Proof.
  intros F Hj. unfold comps_of in Hj. apply in_map_iff in Hj as (e & <- & He). apply In_nth_error in He as [i He].
  destruct (Forall2_nth_l _ _ _ _ _ F He) as (c & Ec & H). exists c, e. split; [eapply nth_error_In; eauto|auto].
Qed.

(** Everything about the problem compiled after some calls. *)
Lemma turn_problem os pd : Forall loop_call os -> compiled_by (prog ++ os) 0 pd ->
  tidy m (prog ++ os) /\ jd_model pd = m /\ (forall L d, Forall (accepted L d) (comps_of pd)) /\
  (forall L d j J, In j (comps_of pd) -> is_barrier j = true -> jacobian L j d = Ok J -> frob2 J <> 0) /\
  Forall2 (made_of m (Forall keeps_limits os)) cs (jd_comps pd).
Proof.
  intros Ho Hpd. destruct (calls_split os Ho) as (O1 & O2 & O3).
  split; [now apply loop_tidy|]. destruct (loop_compiles m lo hi cs os Hm Wl Wh Hc Hw Fl Fh Nd Hs O1) as (pd' & Q1 & Q2 & _ & _ & Q5). assert (pd' = pd) by (unfold prog, compiled_by in *; congruence). subst pd'.
  split; [exact Q2|]. pose proof (loop_made m lo hi cs os pd Hm Wl Wh Hc Hw Fl Fh Nd Hs Hpl O1 O2 O3 Hpd) as Mk. rewrite Forall_forall in Htr.
  split; [|split; [|exact Mk]].
  - intros L d. apply Forall_forall. intros j Hj. destruct (comp_in pd j _ Mk Hj) as (c & e & Ic & <- & _ & SC & c' & Pb & Pl & Jd & _).
    destruct (plain_accepted m c' (snd e) L d Pl Jd Pb) as [N|A]; [|exact A]. elim (tracks_care m c (snd e) (Htr c Ic) SC N).
  - intros L d j J Hj Hb EJ Z. destruct (comp_in pd j _ Mk Hj) as (c & e & Ic & Ee & _ & SC & c' & Pb & Pl & Jd & _ & _ & _ & K). subst j.
    destruct (tracks_bar m c (snd e) (Htr c Ic) SC Hb) as (s & jb & E & Sel & X). pose proof Hm as ((Wj & _) & _).
    pose proof (joint_dims_frob m c' (snd e) L d J Wj Jd Pb X EJ Z) as D0.
    destruct (comp_in pd (snd e) _ Q5 Hj) as (c2 & e2 & Ic2 & Ee2 & _).
    clear Q2. destruct Pb as (_ & P2 & _ & _ & _ & _ & P7). destruct X as (s1 & l1 & h1 & x1 & X). rewrite X in P7. inversion P7 as [| | | | | |? ? ? ? ? Y| | | |]; subst.
    unfold joint_dims in Jd. rewrite Y in Jd. cbn [jb_final] in Jd. destruct Jd as [Jd _]. destruct K as (_ & _ & _ & _ & K). rewrite Y in K.
    rewrite Forall_forall in Hs. destruct (Hs c Ic) as [dd D]. assert (Ok_ : fst (update_model m c) = Ok tt).
    { destruct (suits_usable m c dd) as [U _]; auto; [apply made_reachable; rewrite Forall_forall in Hc; auto|apply arrays_core; rewrite Forall_forall in Hw; now apply Hw]. }
    destruct (joint_barrier_bind m c s jb Wj E) as [_ B2]. unfold suits in D. rewrite E in D. destruct D as (_ & F & _). destruct (B2 F) as (_ & _ & _ & _ & _ & _ & _ & B). specialize (B Ok_).
    unfold bound in K. rewrite B in K. cbn in K. injection K as K1 K2. subst fm. rewrite P2, Jd in D0. destruct (selected m (jb_final jb)); [now apply Sel|]. cbn [List.length] in D0. lia.
Qed.

Lemma turn_runs os L q : Forall loop_call os -> sound_lib L m -> List.length q = m_nq m -> wf_data m (update L m q) ->
  exists pd Q, compiled_by (prog ++ os) 0 pd /\ assemble L m pd (update L m q) = Ok Q /\ List.length (qp_c Q) = m_nv m /\
  forall So s, solve L So m (tvec q) s pd = Ok (So Q, sol_primal (So Q)).
Proof.
  intros Ho HL Hq Hd. destruct (calls_split os Ho) as (O1 & O2 & O3).
  destruct (loop_compiles m lo hi cs os Hm Wl Wh Hc Hw Fl Fh Nd Hs O1) as (pd & Hpd & Em & _). exists pd.
  destruct (turn_problem os pd Ho Hpd) as (T1 & _ & T3 & T4 & _). specialize (T3 L (update L m q)).
  assert (Sq : t_shape (tvec q) = [m_nq m]) by (cbn; now rewrite Hq).
  assert (G : exists Q, assemble L m pd (update L m q) = Ok Q).
  { destruct (program_solves L (fun _ => mkSol [] [] []) m (prog ++ os) 0 pd (tvec q) [] T1 Hpd HL Sq Hd T3) as [(Q & A & _)|(_ & j & J & H1 & H2 & H3 & H4)]; [exists Q; exact A|]. elim (T4 L _ j J H1 H2 H3 H4). }
  destruct G as [Q HQ]. exists Q. split; [exact Hpd|]. split; [exact HQ|]. split; [rewrite <- Em; apply (hessian_shape L m pd (update L m q) Q); [congruence|exact HQ]|].
  intros So s. destruct (program_solves L So m (prog ++ os) 0 pd (tvec q) s T1 Hpd HL Sq Hd T3) as [(Q' & A & B)|(_ & j & J & H1 & H2 & H3 & H4)]; [|elim (T4 L _ j J H1 H2 H3 H4)].
  cbn [t_data tvec] in A. rewrite HQ in A. injection A as <-. exact B.
Qed.

Lemma loop_runs L So dt turns : sound_lib L m -> (forall q, List.length q = m_nq m -> wf_data m (update L m q)) -> one_entry_each So -> Forall (Forall loop_call) turns ->
  forall os q s, Forall loop_call os -> List.length q = m_nq m ->
  exists tr qn, control_loop L So m dt (prog ++ os) turns q s tr qn /\ List.length tr = List.length turns /\ List.length qn = m_nq m.
Proof.
  intros HL Hd Hone. pose proof Hm as ((Wj & _) & _). induction turns as [|o turns IH]; intros Ht os q s Ho Hq; [exists [], q; repeat split; [constructor|exact Hq]|].
  assert (Ho' : Forall loop_call (os ++ o)) by (apply Forall_app; split; [exact Ho|exact (Forall_inv Ht)]).
  destruct (turn_runs (os ++ o) L q Ho' HL Hq (Hd q Hq)) as (pd & Q & Hpd & HQ & Lc & Hso).
  assert (Lv : List.length (sol_primal (So Q)) = m_nv m) by (rewrite Hone; exact Lc).
  destruct (integrate_spec m Wj q _ dt Hq Lv) as (q1 & Hi & L1 & _).
  destruct (IH (Forall_inv_tail Ht) ((os ++ o) ++ [WCompile 0]) q1 (sol_primal (So Q))) as (tr & qn & C & Lt & Ln); [|exact L1|].
  { apply Forall_app. split; [exact Ho'|]. repeat constructor. }
  exists ((q, pd, sol_primal (So Q)) :: tr), qn. split; [|split; [cbn; congruence|exact Ln]].
  apply (loop_turn L So m dt (prog ++ os) o turns q s pd (So Q) (sol_primal (So Q)) q1 tr qn); [|apply Hso|exact Hi|].
  - rewrite <- app_assoc. exact Hpd.
  - rewrite <- !app_assoc. rewrite <- !app_assoc in C. exact C.
Qed.

Lemma made_ok c : In c cs -> exists dd, suits m c dd /\ fst (update_model m c) = Ok tt.
Proof.
  intros Ic. rewrite Forall_forall in Hs. destruct (Hs c Ic) as [dd D]. exists dd. split; [exact D|].
  destruct (suits_usable m c dd) as [U _]; auto; [apply made_reachable; rewrite Forall_forall in Hc; auto|apply arrays_core; rewrite Forall_forall in Hw; now apply Hw].
Qed.
Lemma vle_consts n l : List.length l = n -> Forall (fun x => x <= 0) l -> vle l (vzero n).
Proof. intros <-. unfold vle, vzero. induction 1; cbn; constructor; auto. Qed.
Lemma vge_consts n l : List.length l = n -> Forall (fun x => 0 <= x) l -> vle (vzero n) l.
Proof. intros <-. unfold vle, vzero. induction 1; cbn; constructor; auto. Qed.

Lemma turn_safe os pd L So dt q s sol v q1 : Forall loop_call os -> Forall keeps_limits os -> below_zero lo -> above_zero hi -> Forall (mild dt) cs -> 0 <= dt ->
  sound_lib L m -> keeps_scalars L m -> List.length q = m_nq m -> wf_data m (update L m q) -> Forall (in_limits m q) cs ->
  compiled_by (prog ++ os) 0 pd -> exact_turn L So m (q, pd, v) -> solve L So m (tvec q) s pd = Ok (sol, v) -> integrate m q v dt = Ok q1 ->
  best L (update L m q) pd v /\ Forall (in_limits m q1) cs /\ List.length q1 = m_nq m /\ (normalised m q -> normalised m q1).
Proof.
  intros Ho Hk Hlo Hhi Hmi Hdt HL Hks Hq Hd Hin Hpd Hex Hso Hi. destruct (calls_split os Ho) as (O1 & O2 & O3). pose proof Hm as ((Wj & _) & _).
  destruct (turn_problem os pd Ho Hpd) as (T1 & T2 & T3 & T4 & T5). set (d := update L m q) in *.
  assert (Sq : t_shape (tvec q) = [m_nq m]) by (cbn; now rewrite Hq).
  destruct (loop_brackets m lo hi cs os pd Hm Wl Wh Hc Hw Fl Fh Nd Hs Hlo Hhi O1 Hk Hpd) as [B1 B2].
  destruct (program_components m (prog ++ os) 0 pd T1 Hpd) as (_ & L1 & L2 & _).
  assert (Bar : forall c e, In c cs -> made_of m (Forall keeps_limits os) c e -> forall s0 jb, a_ext (c_at c) = XBarrier s0 (BJoint jb) ->
    let lo' := lower_limits m jb in let hi' := upper_limits m jb in let h := slack lo' hi' (sel_pos m (jb_final jb) q) in
    is_barrier (snd e) = true /\ Forall (fun a => 0 <= a /\ a * dt <= 1) (j_gain (snd e)) /\ (forall x, j_gain_fn (snd e) x = x) /\
    exists J, call L (snd e) d = Ok h /\ jacobian L (snd e) d = Ok J /\ vnonneg h /\ List.length (j_gain (snd e)) = List.length h /\
      forall v q', List.length v = m_nv m -> integrate m q v dt = Ok q' ->
        slack lo' hi' (sel_pos m (jb_final jb) q') = vadd h (vscale dt (mv J v)) /\ (vnonneg (slack lo' hi' (sel_pos m (jb_final jb) q')) -> within lo' hi' (sel_pos m (jb_final jb) q'))).
  { intros c e Ic Mk s0 jb E lo' hi' h. destruct (made_ok c Ic) as (dd & D & Ok_).
    assert (Mk' : made_of m True c e). { destruct Mk as (M1 & M2 & c' & M3 & M4 & M5 & M6 & M7). split; [exact M1|]. split; [exact M2|]. exists c'. repeat (split; [first [exact M3|exact M4|exact M5|intros _; apply M6, Hk]|]). exact M7. }
    rewrite Forall_forall in Hpl, Hmi, Hin. pose proof (Hmi c Ic) as Mi. unfold mild in Mi. rewrite E in Mi. destruct Mi as [Mi1 Mi2]. specialize (Hin c Ic). unfold in_limits in Hin. rewrite E in Hin.
    destruct (bar_made m c e s0 jb dd (fun a => 0 <= a /\ a * dt <= 1) Hm D Ok_ (Hpl c Ic) Mk' E) as (M & F & Lim & Ll & Lu & G & Gf).
    assert (Hag : agrees (j_model (snd e)) q (d_qpos d)) by (rewrite M; now apply Hks).
    destruct (jb_motion (jb_final jb) (snd e) _ _ F Lim L q d) as (J & Ec & EJ & Enn & _ & Eg & Mo); [now rewrite M|exact Hag|now rewrite M|now rewrite M|]. rewrite M in *.
    split; [destruct F as (_ & _ & _ & _ & _ & s1 & l1 & h1 & X); unfold is_barrier; now rewrite X|]. split; [now apply G|]. split; [now rewrite Gf|].
    exists J. split; [exact Ec|]. split; [exact EJ|]. split; [now apply Enn|]. split; [exact Eg|].
    intros v' q' Lv' Hi'. destruct (Mo v' dt Lv') as (q2 & Hi2 & Lq2 & Es & _). rewrite Hi' in Hi2. injection Hi2 as <-. split; [exact Es|].
    destruct (jb_motion (jb_final jb) (snd e) _ _ F Lim L q' (update L m q')) as (_ & _ & _ & Enn' & _); [now rewrite M|rewrite M; now apply Hks|now rewrite M|now rewrite M|]. rewrite M in Enn'. exact (proj1 Enn'). }
  rewrite Forall_forall in Htr.
  assert (Rest : may_rest L d pd).
  { split; [rewrite T2; now apply vle_consts|]. split; [rewrite T2; now apply vge_consts|]. apply Forall_forall. intros j Hj.
    destruct (comp_in pd j _ T5 Hj) as (c & e & Ic & <- & Mk). pose proof Mk as (_ & SC & _). split.
    - intros Hb. destruct (tracks_bar m c (snd e) (Htr c Ic) SC Hb) as (s0 & jb & E & _). destruct (Bar c e Ic Mk s0 jb E) as (_ & G & Gf & J & Ec & _ & Nn & _).
      split; [eapply Forall_impl; [|exact G]; intros a [X _]; exact X|]. split; [intros x Hx; now rewrite Gf|]. intros e0 He0. rewrite Ec in He0. now injection He0 as <-.
    - rewrite (tracks_hard m c (snd e) (Htr c Ic) SC). discriminate. }
  destruct (program_rest L m (prog ++ os) 0 pd T1 Hpd HL So (tvec q) s Sq Hd (T3 L d) (T4 L d) Hex Rest) as (s' & v' & _ & _ & E1 & Bst & _).
  rewrite Hso in E1. injection E1 as <- <-. split; [exact Bst|]. destruct Bst as [(Lv & _ & _ & Cb) _]. rewrite T2 in Lv.
  destruct (integrate_spec m Wj q v dt Hq Lv) as (q2 & Hi2 & Lq2 & _ & _ & Nm & _). rewrite Hi in Hi2. injection Hi2 as <-.
  split; [|split; [exact Lq2|intros Hn j a Ha; apply (Nm j a Ha); rewrite (Hn j a Ha); lra]].
  apply Forall_forall. intros c Ic. unfold in_limits. destruct (a_ext (c_at c)) as [|s0 [|jb| |]|] eqn:E; auto.
  apply In_nth_error in Ic as [i Ei]. destruct (Forall2_nth _ _ _ _ _ T5 Ei) as (e & Ee & Mk). apply nth_error_In in Ei.
  destruct (Bar c e Ei Mk s0 jb E) as (Hb & G & Gf & J & Ec & EJ & Nn & Lg & Mo). destruct (Mo v q1 Lv Hi) as [Es W]. apply W. rewrite Es.
  rewrite Forall_forall in Cb. assert (Ij : In (snd e) (comps_of pd)) by (unfold comps_of; apply in_map; eapply nth_error_In; eauto).
  destruct (Cb (snd e) Ij) as [C1 _]. specialize (C1 Hb J _ EJ Ec). unfold gained in C1. rewrite (map_ext _ (fun x => x)) in C1 by exact Gf.
  apply (vnonneg_vle _ _ (cbf_step _ _ _ dt Hdt Lg ltac:(eapply Forall_impl; [|exact G]; intros a [Y1 Y2]; split; [now apply Rmult_le_pos|exact Y2]) C1)).
  apply vnonneg_vmul; [|exact Nn]. rewrite Forall_map. eapply Forall_impl; [|exact G]. intros a [Y1 Y2]. lra.
Qed.

Lemma loop_safe L So dt : below_zero lo -> above_zero hi -> Forall (mild dt) cs -> 0 <= dt -> sound_lib L m -> keeps_scalars L m -> (forall q, List.length q = m_nq m -> wf_data m (update L m q)) ->
  forall turns os q s tr qn, Forall (Forall loop_call) turns -> Forall (Forall keeps_limits) turns -> Forall loop_call os -> Forall keeps_limits os ->
  List.length q = m_nq m -> Forall (in_limits m q) cs -> control_loop L So m dt (prog ++ os) turns q s tr qn -> Forall (exact_turn L So m) tr ->
  List.length qn = m_nq m /\ Forall (in_limits m qn) cs /\ Forall (fun t => let '(q, pd, v) := t in Forall (in_limits m q) cs /\ best L (update L m q) pd v) tr /\
  (normalised m q -> normalised m qn /\ Forall (fun t => normalised m (fst (fst t))) tr).
Proof.
  intros Hlo Hhi Hmi Hdt HL Hks Hd. induction turns as [|o turns IH]; intros os q s tr qn Ht Hkt Ho Hk Hq Hin C Hex; inversion C as [|? ? ? ? ? pd sol v q1 tr' ? Hpd Hso Hi C']; subst.
  - repeat split; auto.
  - assert (Ho' : Forall loop_call (os ++ o)) by (apply Forall_app; split; [exact Ho|exact (Forall_inv Ht)]).
    assert (Hk' : Forall keeps_limits (os ++ o)) by (apply Forall_app; split; [exact Hk|exact (Forall_inv Hkt)]).
    rewrite <- app_assoc in Hpd. pose proof (Forall_inv Hex) as Hex0.
    destruct (turn_safe (os ++ o) pd L So dt q s sol v q1 Ho' Hk' Hlo Hhi Hmi Hdt HL Hks Hq (Hd q Hq) Hin Hpd Hex0 Hso Hi) as (S1 & S2 & S3 & S4).
    assert (EC : control_loop L So m dt (prog ++ ((os ++ o) ++ [WCompile 0])) turns q1 v tr' qn) by (rewrite <- !app_assoc in C' |- *; exact C').
    destruct (IH ((os ++ o) ++ [WCompile 0]) q1 v tr' qn (Forall_inv_tail Ht) (Forall_inv_tail Hkt)) as (R1 & R2 & R3 & R4); auto.
    + apply Forall_app. split; [exact Ho'|repeat constructor].
    + apply Forall_app. split; [exact Hk'|repeat constructor].
    + exact (Forall_inv_tail Hex).
    + split; [exact R1|]. split; [exact R2|]. split; [constructor; [auto|exact R3]|]. intros Hn. destruct (R4 (S4 Hn)) as [R5 R6]. split; [exact R5|]. constructor; [exact Hn|exact R6].
Qed.
End Loop.
