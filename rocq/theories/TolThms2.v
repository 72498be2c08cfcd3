(** The documented control loop with a solver tolerance. *)
From Verif Require Import Base Lin LinFacts Mjx Typing Component Problem SpecComponent SpecJoint SpecHistory SpecTyping SpecCollision SpecTree SpecShape SpecContact SpecValue SpecProblem SpecQP SpecFit SpecTrace SpecSetup.
From Verif Require Import ComponentFacts ComponentFacts2 ApiSteps JointFacts BindFacts BindFacts2 BindFacts3 CoreFacts ProblemFacts CompThms BindThms ProbThms ShareFacts FitFacts FitFacts3 SetupFacts SetupFacts2 SetupFacts3 SetupFacts4 Conf JaxComponents LocalIK SpecMotion SpecLoop SpecSolve SpecClosed MotionFacts MotionFacts2 LoopFacts QPFacts QPThms QPThms2 QPThms4 SolveFacts SolveThms DescentThms TraceFacts ClosedFacts ClosedFacts2 ClosedThms SetupFacts5 ClosedThms2 DescentThms2 SpecTol TolFacts TolThms.
Open Scope R_scope.
#[local] Arguments update_model : simpl never.
#[local] Arguments jax_component : simpl never.
#[local] Arguments build_component : simpl never.

Section Loop.
Context (m : mjmodel) (lo hi : tensor) (cs : list comp).
Context (Hm : sound_model m) (Wl : wf_tensor lo) (Wh : wf_tensor hi) (Hc : Forall constructed cs) (Hw : Forall (fun c => wf_arrays (c_at c)) cs).
Context (Fl : limit_fits m lo) (Fh : limit_fits m hi) (Nd : NoDup (map nm cs)) (Hs : Forall (fun c => exists d, suits m c d) cs) (Hpl : Forall (plain m) cs) (Htr : Forall (tracks m) cs).
Let prog := setup m lo hi cs.

Lemma turn_near os pd L So g eps dt q s sol v q1 : Forall loop_call os -> Forall keeps_limits os -> 0 < g -> 0 <= eps -> Forall (brisk g dt) cs -> 0 <= dt ->
  sound_lib L m -> keeps_scalars L m -> one_entry_each So -> List.length q = m_nq m -> wf_data m (update L m q) -> Forall (in_limits_by (eps / g) m q) cs ->
  compiled_by (prog ++ os) 0 pd -> near_turn eps L m (q, pd, v) -> solve L So m (tvec q) s pd = Ok (sol, v) -> integrate m q v dt = Ok q1 ->
  nearly eps L (update L m q) pd v /\ Forall (in_limits_by (eps / g) m q1) cs /\ List.length q1 = m_nq m /\ (normalised m q -> normalised m q1).
Proof.
  intros Ho Hk Pg Pe Hmi Hdt HL Hks Hone Hq Hd Hin Hpd Hex Hso Hi. pose proof Hm as ((Wj & _) & _).
  destruct (turn_problem m lo hi cs Hm Wl Wh Hc Hw Fl Fh Nd Hs Hpl Htr os pd Ho Hpd) as (T1 & T2 & T3 & T4 & T5).
  destruct (turn_runs m lo hi cs Hm Wl Wh Hc Hw Fl Fh Nd Hs Hpl Htr os L q Ho HL Hq Hd) as (pd' & Q & Hpd' & HQ & Lc & HS). assert (pd' = pd) by (unfold prog, compiled_by in *; congruence). subst pd'.
  rewrite HS in Hso. injection Hso as _ <-. set (v := sol_primal (So Q)) in *. assert (Lv : List.length v = m_nv m) by (unfold v; now rewrite Hone). set (d := update L m q) in *.
  assert (Nr : nearly eps L d pd v) by (apply (program_residual L m (prog ++ os) 0 pd d Q eps v T1 Hpd HL Hd (T3 L d) HQ Lv); apply Hex; exact HQ).
  split; [exact Nr|]. destruct (integrate_spec m Wj q v dt Hq Lv) as (q2 & Hi2 & Lq2 & _ & _ & Nm & _). rewrite Hi in Hi2. injection Hi2 as <-.
  split; [|split; [exact Lq2|intros Hn j a Ha; apply (Nm j a Ha); rewrite (Hn j a Ha); lra]].
  apply Forall_forall. intros c Ic. unfold in_limits_by. destruct (a_ext (c_at c)) as [|s0 [|jb| |]|] eqn:E; auto.
  apply In_nth_error in Ic as [i Ei]. destruct (Forall2_nth _ _ _ _ _ T5 Ei) as (e & Ee & Mk). apply nth_error_In in Ei. rename Ei into Ic.
  destruct (made_ok m cs Hm Hc Hw Hs c Ic) as (dd & D & Ok_).
  assert (Mk' : made_of m True c e). { destruct Mk as (M1 & M2 & c' & M3 & M4 & M5 & M6 & M7). split; [exact M1|]. split; [exact M2|]. exists c'. repeat (split; [first [exact M3|exact M4|exact M5|intros _; apply M6, Hk]|]). exact M7. }
  rewrite Forall_forall in Hpl, Hmi, Hin. pose proof (Hmi c Ic) as Mi. unfold brisk in Mi. rewrite E in Mi. destruct Mi as [Mi1 Mi2]. specialize (Hin c Ic). unfold in_limits_by in Hin. rewrite E in Hin.
  destruct (bar_made m c e s0 jb dd (fun a => g <= a /\ a * dt <= 1) Hm D Ok_ (Hpl c Ic) Mk' E) as (M & F & Lim & Ll & Lu & G & Gf).
  assert (Hag : agrees (j_model (snd e)) q (d_qpos d)) by (rewrite M; now apply Hks).
  destruct (jb_motion (jb_final jb) (snd e) _ _ F Lim L q d) as (J & Ec & EJ & _ & _ & Eg & Mo); [now rewrite M|exact Hag|now rewrite M|now rewrite M|]. rewrite M in *.
  destruct (Mo v dt Lv) as (q2 & Hi2 & _ & Es & _). rewrite Hi in Hi2. injection Hi2 as <-.
  assert (Hb : is_barrier (snd e) = true) by (destruct F as (_ & _ & _ & _ & _ & s1 & l1 & h1 & X); unfold is_barrier; now rewrite X).
  assert (Ls : forall x, List.length (sel_pos m (jb_final jb) x) = List.length (selected m (jb_final jb))) by (intros; apply map_length).
  apply slack_by in Hin; [|rewrite Ls; assumption|rewrite Ls; assumption]. apply slack_by; [rewrite Ls; assumption|rewrite Ls; assumption|]. rewrite Es.
  set (h := slack (lower_limits m jb) (upper_limits m jb) (sel_pos m (jb_final jb) q)) in *.
  destruct Nr as (_ & _ & _ & Cb). rewrite Forall_forall in Cb. assert (Ij : In (snd e) (comps_of pd)) by (unfold comps_of; apply in_map; eapply nth_error_In; eauto).
  destruct (Cb (snd e) Ij) as [C1 _]. specialize (C1 Hb J _ EJ Ec). pose proof (vle_by_length _ _ _ C1) as Lm. rewrite vneg_length, gained_length in Lm by exact Eg.
  specialize (G Mi2). apply Forall_nth. intros k x Hx. assert (Lk : List.length (vadd h (vscale dt (mv J v))) = List.length h) by (rewrite vadd_length; [rewrite vscale_length; now symmetry|rewrite vscale_length; exact Lm]).
  rewrite Lk in Hx. rewrite (nth_indep _ x 0) by (rewrite Lk; exact Hx). rewrite nth_vadd_scale by exact Lm.
  pose proof (nth_vle_by _ _ _ k C1 ltac:(rewrite vneg_length, gained_length by exact Eg; exact Hx)) as K. rewrite nth_vneg, nth_gained in K by auto. rewrite Gf, Mi1 in K.
  assert (Ga : g <= nth k (j_gain (snd e)) 0 /\ nth k (j_gain (snd e)) 0 * dt <= 1) by (rewrite Forall_forall in G; apply G, nth_In; lia).
  assert (Hh : - (eps / g) <= nth k h 0) by (rewrite Forall_forall in Hin; apply Hin, nth_In; exact Hx).
  set (a := nth k (j_gain (snd e)) 0) in *. set (y := nth k h 0) in *. set (z := nth k (mv J v) 0) in *. clearbody a y z.
  pose proof (near_step a y z eps dt Hdt ltac:(lra) (proj2 Ga) K) as N. set (w := eps / g) in *. assert (Ew : eps = g * w) by (unfold w; field; lra). assert (Pw : 0 <= w) by (unfold w; apply Rmult_le_pos; [exact Pe|left; now apply Rinv_0_lt_compat]).
  assert (M1 : (1 - a * dt) * - w <= (1 - a * dt) * y) by (apply Rmult_le_compat_l; lra). assert (M2 : 0 <= (a - g) * w * dt) by (apply Rmult_le_pos; [apply Rmult_le_pos; lra|exact Hdt]). rewrite Ew in N. lra.
Qed.

Lemma loop_near L So g eps dt : 0 < g -> 0 <= eps -> Forall (brisk g dt) cs -> 0 <= dt -> sound_lib L m -> keeps_scalars L m -> one_entry_each So -> (forall q, List.length q = m_nq m -> wf_data m (update L m q)) ->
  forall turns os q s tr qn, Forall (Forall loop_call) turns -> Forall (Forall keeps_limits) turns -> Forall loop_call os -> Forall keeps_limits os ->
  List.length q = m_nq m -> Forall (in_limits_by (eps / g) m q) cs -> control_loop L So m dt (prog ++ os) turns q s tr qn -> Forall (near_turn eps L m) tr ->
  List.length qn = m_nq m /\ Forall (in_limits_by (eps / g) m qn) cs /\ Forall (fun t => let '(q, pd, v) := t in Forall (in_limits_by (eps / g) m q) cs /\ nearly eps L (update L m q) pd v) tr /\
  (normalised m q -> normalised m qn /\ Forall (fun t => normalised m (fst (fst t))) tr).
Proof.
  intros Pg Pe Hmi Hdt HL Hks Hone Hd. induction turns as [|o turns IH]; intros os q s tr qn Ht Hkt Ho Hk Hq Hin C Hex; inversion C as [|? ? ? ? ? pd sol v q1 tr' ? Hpd Hso Hi C']; subst.
  - repeat split; auto.
  - assert (Ho' : Forall loop_call (os ++ o)) by (apply Forall_app; split; [exact Ho|exact (Forall_inv Ht)]).
    assert (Hk' : Forall keeps_limits (os ++ o)) by (apply Forall_app; split; [exact Hk|exact (Forall_inv Hkt)]).
    rewrite <- app_assoc in Hpd. pose proof (Forall_inv Hex) as Hex0.
    destruct (turn_near (os ++ o) pd L So g eps dt q s sol v q1 Ho' Hk' Pg Pe Hmi Hdt HL Hks Hone Hq (Hd q Hq) Hin Hpd Hex0 Hso Hi) as (S1 & S2 & S3 & S4).
    assert (EC : control_loop L So m dt (prog ++ ((os ++ o) ++ [WCompile 0])) turns q1 v tr' qn) by (rewrite <- !app_assoc in C' |- *; exact C').
    destruct (IH ((os ++ o) ++ [WCompile 0]) q1 v tr' qn (Forall_inv_tail Ht) (Forall_inv_tail Hkt)) as (R1 & R2 & R3 & R4); auto.
    + apply Forall_app. split; [exact Ho'|repeat constructor].
    + apply Forall_app. split; [exact Hk'|repeat constructor].
    + exact (Forall_inv_tail Hex).
    + split; [exact R1|]. split; [exact R2|]. split; [constructor; [auto|exact R3]|]. intros Hn. destruct (R4 (S4 Hn)) as [R5 R6]. split; [exact R5|]. constructor; [exact Hn|exact R6].
Qed.
End Loop.
Lemma loop_stays_near m lo hi cs L So g eps dt turns q s tr qn : sound_model m -> wf_tensor lo -> wf_tensor hi -> Forall constructed cs -> Forall (fun c => wf_arrays (c_at c)) cs ->
  limit_fits m lo -> limit_fits m hi -> NoDup (map nm cs) -> Forall (fun c => exists d, suits m c d) cs -> Forall (plain m) cs -> Forall (tracks m) cs ->
  sound_lib L m -> (forall q, List.length q = m_nq m -> wf_data m (update L m q)) -> keeps_scalars L m -> one_entry_each So -> 0 < g -> 0 <= eps -> Forall (brisk g dt) cs -> 0 <= dt ->
  Forall (Forall loop_call) turns -> Forall (Forall keeps_limits) turns -> List.length q = m_nq m -> Forall (in_limits_by (eps / g) m q) cs ->
  control_loop L So m dt (setup m lo hi cs) turns q s tr qn -> Forall (near_turn eps L m) tr ->
  Forall (in_limits_by (eps / g) m qn) cs /\
  Forall (fun t => let '(q, pd, v) := t in Forall (in_limits_by (eps / g) m q) cs /\ nearly eps L (update L m q) pd v) tr.
Proof.
  intros Hm Wl Wh Hc Hw Fl Fh Nd Hs Hpl Htr HL Hd Hks Hone Pg Pe Hmi Hdt Ht Hk Hq Hin C Hex.
  destruct (loop_near m lo hi cs Hm Wl Wh Hc Hw Fl Fh Nd Hs Hpl Htr L So g eps dt Pg Pe Hmi Hdt HL Hks Hone Hd turns [] q s tr qn Ht Hk) as (_ & A & B & _); auto. rewrite app_nil_r. exact C.
Qed.
Lemma limits_range_by w m q n g gf sdg jb : new_joint_barrier n (tscalar g) gf sdg None None None = Ok jb -> (in_limits_by w m q jb <-> in_range_by w m q).
Proof.
  intros H. apply limits_new in H. subst jb. unfold in_limits_by. cbn [c_at a_ext new_comp]. unfold within_by, lower_limits, upper_limits, sel_pos, selected, in_range_by. cbn [jb_qmin jb_qmax jb_final].
  assert (V : forall (f g : nat -> R) l, vle_by w (map f l) (map g l) <-> forall x, In x l -> f x <= g x + w).
  { intros f g' l. unfold vle_by. induction l as [|a l IH]; cbn; [split; [intros _ x []|constructor]|]. split.
    - intros H x [<-|Hx]; inversion H; subst; auto. now apply IH.
    - intros H. constructor; [apply H; now left|]. apply IH. intros x Hx. apply H. now right. }
  rewrite !V. split.
  - intros [A B] j t Hj Ht. assert (I : In j (scalar_joints (m_jnt_type m) 0)).
    { apply scalar_joints_spec. rewrite Nat.sub_0_r. split; [split; [lia|]; apply nth_error_Some; unfold joint_type in Hj; rewrite Hj; discriminate|]. now exists t. }
    specialize (A j I). specialize (B j I). lra.
  - intros H. split; intros j Hj; apply scalar_joints_spec in Hj as (_ & t & Hj & Ht); rewrite Nat.sub_0_r in Hj; specialize (H j t Hj Ht); lra.
Qed.
Lemma readme_near m s i lo hi cost g1 g2 lm d ft jb L So eps dt turns q s0 tr qn : sound_model m -> has_object m OBody s i -> (0 < n_scalar m)%nat ->
  wf_tensor lo -> wf_tensor hi -> limit_fits m lo -> limit_fits m hi ->
  new_frame_task "ee_task" (tscalar cost) (tscalar g1) s OBody None lm None = Ok ft ->
  new_joint_barrier "jnt_range" (tscalar g2) None d None None None = Ok jb ->
  0 <= dt -> 0 < g2 -> g2 * dt <= 1 -> 0 <= eps -> sound_lib L m -> keeps_scalars L m -> (forall q, List.length q = m_nq m -> wf_data m (update L m q)) -> one_entry_each So ->
  Forall (Forall loop_call) turns -> Forall (Forall keeps_limits) turns -> List.length q = m_nq m -> in_range_by (eps / g2) m q ->
  control_loop L So m dt (setup m lo hi [ft; jb]) turns q s0 tr qn -> Forall (near_turn eps L m) tr ->
  in_range_by (eps / g2) m qn /\ Forall (fun t => in_range_by (eps / g2) m (fst (fst t))) tr.
Proof.
  intros Hm Ho Hn Wl Wh Fl Fh Hf Hj Hdt Hg Hgd Pe HL Hks Hd Hone Ht Hk Hq Hin C Hex.
  destruct (frame_suits _ _ _ _ _ _ _ _ Hf Ho) as (F1 & F2 & F3 & F4 & F5). destruct (limits_suits _ _ _ _ _ m Hj) as (J1 & J2 & J3 & J4 & J5).
  assert (Nd : NoDup (map nm [ft; jb])). { cbn. rewrite F5, J5. constructor; [intros [X|[]]; discriminate|]. constructor; [intros []|constructor]. }
  assert (Htr : Forall (tracks m) [ft; jb]).
  { constructor; [|constructor; [exact (limits_track _ _ _ _ _ _ Hn Hj)|constructor]]. apply frame_new in Hf. now subst ft. }
  assert (Hmi : Forall (brisk g2 dt) [ft; jb]).
  { constructor; [apply frame_new in Hf; now subst ft|]. constructor; [|constructor]. apply limits_new in Hj. subst jb. cbn. split; [reflexivity|]. constructor; [split; [lra|exact Hgd]|constructor]. }
  assert (Hil : forall x, Forall (in_limits_by (eps / g2) m x) [ft; jb] <-> in_range_by (eps / g2) m x).
  { intros x. rewrite <- (limits_range_by (eps / g2) m x _ _ _ _ _ Hj). split; [intros H; exact (Forall_inv (Forall_inv_tail H))|]. intros H. constructor; [|constructor; [exact H|constructor]]. apply frame_new in Hf. now subst ft. }
  destruct (loop_stays_near m lo hi [ft; jb] L So g2 eps dt turns q s0 tr qn Hm Wl Wh ltac:(apply two; assumption) ltac:(apply two; assumption) Fl Fh Nd ltac:(apply two; eauto) ltac:(apply two; assumption) Htr HL Hd Hks Hone Hg Pe Hmi Hdt Ht Hk Hq ltac:(now apply Hil) C Hex) as (A & B).
  split; [now apply Hil|]. eapply Forall_impl; [|exact B]. intros [[q' pd] v] [H _]. now apply Hil.
Qed.
