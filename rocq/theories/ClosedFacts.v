(** Lemmas behind C94: what a compiled problem keeps of the components it was made from. *)
From Verif Require Import Base Lin LinFacts Mjx Typing Component Problem SpecComponent SpecJoint SpecHistory SpecTyping SpecCollision SpecTree SpecShape SpecContact SpecValue SpecProblem SpecQP SpecFit SpecTrace SpecSetup.
From Verif Require Import ComponentFacts ComponentFacts2 ApiSteps JointFacts BindFacts BindFacts2 BindFacts3 CoreFacts ProblemFacts CompThms BindThms ProbThms ShareFacts FitFacts FitFacts3 SetupFacts SetupFacts2 SetupFacts3 SetupFacts4 JaxComponents LocalIK SpecMotion SpecClosed MotionFacts2 DescentThms TraceFacts.
Open Scope nat_scope.
#[local] Arguments update_model : simpl never.
#[local] Arguments jax_component : simpl never.
#[local] Arguments build_component : simpl never.

(** Joint limits stay what they are. *)
Definition keeps_bars (c c' : comp) : Prop :=
  match a_ext (c_at c) with XBarrier _ (BJoint j) => exists s, a_ext (c_at c') = XBarrier s (BJoint j) | _ => True end.
Lemma bars_ext c c' : a_ext (c_at c') = a_ext (c_at c) -> keeps_bars c c'.
Proof. unfold keeps_bars. intros E. destruct (a_ext (c_at c)) as [|s []|]; eauto. Qed.
Lemma bars_trans a b c : keeps_bars a b -> keeps_bars b c -> keeps_bars a c.
Proof. unfold keeps_bars. destruct (a_ext (c_at a)) as [|s []|]; auto. intros [s' E]. rewrite E. auto. Qed.
Lemma bars_none c c' : (forall s j, a_ext (c_at c) <> XBarrier s (BJoint j)) -> keeps_bars c c'.
Proof. unfold keeps_bars. intros H. destruct (a_ext (c_at c)) as [|s []|] eqn:E; auto. now elim (H s j). Qed.
Definition keeps_limits_op (o : cop) : Prop := keeps_limits (WCop 0 o).
Lemma bars_after o c : tuning o -> keeps_limits_op o -> keeps_bars c (after o c).
Proof.
  intros [o' Hn Hw|b|x|x] Ho.
  - unfold after. destruct o'; cbn in Hn, Ho; try contradiction; cbn [run_cop].
    + apply bars_ext. unfold update_gain. go. destruct (Nat.ltb 1 (ndim t)); reflexivity.
    + unfold update_cost. go. destruct (a_ext (c_at c)) as [cost lm k| |] eqn:E; [apply bars_none; intros; congruence|now apply bars_ext|now apply bars_ext].
    + unfold update_target_com. go. destruct (a_ext (c_at c)) as [cost lm k| |] eqn:E; [apply bars_none; intros; congruence|now apply bars_ext|now apply bars_ext].
    + unfold update_target_pos. go. destruct (a_ext (c_at c)) as [cost lm k| |] eqn:E; [apply bars_none; intros; congruence|now apply bars_ext|now apply bars_ext].
    + unfold update_target_frame. go. destruct (a_ext (c_at c)) as [cost lm k| |] eqn:E; [apply bars_none; intros; congruence|now apply bars_ext|now apply bars_ext].
    + unfold update_target_q. go. destruct (a_ext (c_at c)) as [cost lm k| |] eqn:E; [apply bars_none; intros; congruence|now apply bars_ext|now apply bars_ext].
    + unfold update_p_min. go. destruct (a_ext (c_at c)) as [|s []|] eqn:E; try (apply bars_none; intros; congruence). now apply bars_ext.
    + unfold update_p_max. go. destruct (a_ext (c_at c)) as [|s []|] eqn:E; try (apply bars_none; intros; congruence). now apply bars_ext.
    + rewrite ignore_at. apply bars_ext, mask_ext.
    + rewrite ignore_at. apply bars_ext, mask_idxs_ext.
    + rewrite ignore_at. apply bars_ext, jax_ext.
  - unfold after, keeps_bars. cbn. unfold assign_active. destruct (a_ext (c_at c)) as [|s []|] eqn:E; cbn; eauto.
  - unfold after, keeps_bars. cbn. unfold assign_safe_displacement_gain. destruct (a_ext (c_at c)) as [|s []|] eqn:E; cbn; eauto.
  - unfold after, keeps_bars. cbn. unfold assign_d_min. destruct (a_ext (c_at c)) as [|s []|] eqn:E; cbn; eauto.
Qed.

Lemma entry_at (cs : list comp) : forall b i c, nth_error cs i = Some c -> nth_error (combine (map nm cs) (seq b (List.length cs))) i = Some (nm c, b + i).
Proof. induction cs as [|x l IH]; intros b [|j] y E; cbn in *; try discriminate; [injection E as ->; now rewrite Nat.add_0_r|]. rewrite (IH (S b) j y E). do 2 f_equal. lia. Qed.

(** Each compiled component is made of the user's component in its present state. *)
Definition made_of (m : mjmodel) (fixed : Prop) (c : comp) (e : string * jaxc) : Prop :=
  fst e = nm c /\ same_class c (snd e) /\ exists c', published c' (snd e) /\ plain m c' /\ joint_dims m (c_at c') /\ (fixed -> keeps_bars (bound m c) c') /\
  a_gain (c_at c') = a_gain (c_at c) /\ a_gain_fn (c_at c') = a_gain_fn (c_at c) /\ kin (c_at (bound m c)) (c_at c').
Lemma loop_made m lo hi cs os pd : sound_model m -> wf_tensor lo -> wf_tensor hi -> Forall constructed cs -> Forall (fun c => wf_arrays (c_at c)) cs ->
  limit_fits m lo -> limit_fits m hi -> NoDup (map nm cs) -> Forall (fun c => exists d, suits m c d) cs -> Forall (plain m) cs ->
  Forall steering os -> Forall proper os -> Forall plain_call os ->
  compiled_by (setup m lo hi cs ++ os) 0 pd -> Forall2 (made_of m (Forall keeps_limits os)) cs (jd_comps pd).
Proof.
  intros Hm Wl Wh Hc Hw Fl Fh Nd Hs Hpl Hst Hpr Hpc Hpd.
  assert (Ht : Forall tuning_step os) by (eapply Forall_impl; [|exact Hst]; intros o [X _]; exact X).
  destruct (setup_tuned m lo hi cs os Hm Wl Wh Hc Hw Fl Fh Nd Hs Ht) as (p & Ep & P1 & P2 & P3 & P4). specialize (P4 Hst).
  destruct (loop_compiles m lo hi cs os Hm Wl Wh Hc Hw Fl Fh Nd Hs Hst) as (pd' & Q1 & _ & _ & _ & Q5). assert (pd' = pd) by (unfold compiled_by in *; congruence). subst pd'.
  assert (Hb : Forall (bodies_known m) cs) by (eapply Forall_impl; [|exact Hs]; apply suits_known).
  destruct (proj2 (setup_iff m lo hi cs Hm Wl Wh Hc Hw Hb)) as [R _]; [auto|].
  destruct (setup_runs m lo hi cs Wl Wh) as [S1 S2]. destruct (S2 R) as (vl & vh & _ & _ & E). apply S1 in R as (_ & _ & R & _).
  set (w0 := mkW (map (bound m) cs) [mkP m vl vh (combine (map nm cs) (seq 0 (List.length cs)))]) in *.
  assert (EW : state (setup m lo hi cs ++ os) = run os w0).
  { unfold state, run. rewrite fold_left_app. unfold state, run in E. now rewrite E. }
  assert (T : Forall2 (fun c c' => joint_dims m (c_at c) /\ plain m c -> joint_dims m (c_at c') /\ plain m c') (map (bound m) cs) (w_comps (state (setup m lo hi cs ++ os)))).
  { rewrite EW. refine (over_run (fun c c' => joint_dims m (c_at c) /\ plain m c -> joint_dims m (c_at c') /\ plain m c') (fun o => tuning o /\ plain_op o) _ _ _ _ os Ht _ w0); auto.
    - intros o c [H1 H2] [H3 H4]. split; [exact (joint_dims_kin m _ _ (kin_tuning o c H1) H3)|now apply plain_after].
    - split; [apply tune_call; exact I|exact I].
    - clear - Ht Hpc. rewrite Forall_forall in *. intros o Ho. specialize (Ht o Ho). specialize (Hpc o Ho). destruct o as [| |ci o| | | | | | | |]; cbn in *; auto. }
  assert (B : Forall keeps_limits os -> Forall2 keeps_bars (map (bound m) cs) (w_comps (state (setup m lo hi cs ++ os)))).
  { intros Hk. rewrite EW. refine (over_run keeps_bars (fun o => tuning o /\ keeps_limits_op o) _ _ _ _ os Ht _ w0).
    - intros c. now apply bars_ext.
    - exact bars_trans.
    - intros o c [H1 H2]. now apply bars_after.
    - split; [apply tune_call; exact I|exact I].
    - clear - Ht Hk. rewrite Forall_forall in *. intros o Ho. specialize (Ht o Ho). specialize (Hk o Ho). destruct o as [| |ci o| | | | | | | |]; cbn in *; auto. }
  assert (Hl : Forall legal (setup m lo hi cs ++ os)) by (apply Forall_app; split; [now apply setup_legal|now apply tuned_ops]).
  pose proof (reach_always _ Hl) as Hr. rewrite Forall_forall in Hr.
  destruct (proj1 (proj1 (compile_spec _ 0 p Hl Ep) pd) Hpd) as (_ & _ & _ & S4). rewrite P2 in S4.
  assert (G : forall i c e, nth_error cs i = Some c -> nth_error (jd_comps pd) i = Some e -> made_of m (Forall keeps_limits os) c e).
  { intros i c e E1 E2. destruct (Forall2_nth_l _ _ _ _ _ S4 E2) as ([n k] & E3 & F1 & c' & E4 & J). cbn [fst snd] in *.
    rewrite (entry_at cs 0 i c E1) in E3. injection E3 as <- <-. cbn [plus] in E4.
    destruct (Forall2_nth _ _ _ _ _ Q5 E1) as (e2 & E5 & _ & SC & _). assert (e2 = e) by congruence; subst e2.
    split; [exact F1|]. split; [exact SC|]. exists c'. split; [apply availability; [apply Hr; eapply nth_error_In; eauto|exact J]|].
    assert (EM : nth_error (map (bound m) cs) i = Some (bound m c)) by (rewrite nth_error_map, E1; reflexivity).
    destruct (Forall2_nth _ _ _ _ _ T EM) as (c2 & E6 & Q). assert (c2 = c') by congruence; subst c2.
    pose proof (nth_error_In _ _ E1) as I1. rewrite Forall_forall in Hs, Hpl, R. destruct (Hs c I1) as [dd D]. destruct (plain_bound m c dd Hm D (Hpl c I1) (R c I1)) as [B1 B2]. destruct (Q (conj B2 B1)) as [Qa Qb].
    split; [exact Qb|]. split; [exact Qa|]. split.
    { intros Hk. destruct (Forall2_nth _ _ _ _ _ (B Hk) EM) as (c2 & E7 & X). assert (c2 = c') by congruence; subst c2. exact X. }
    destruct (Forall2_nth _ _ _ _ _ P3 E1) as (c2 & E7 & d & _ & _ & K & _). assert (c2 = c') by congruence; subst c2.
    destruct (Forall2_nth _ _ _ _ _ P4 E1) as (c2 & E8 & Wt). assert (c2 = c') by congruence; subst c2.
    pose proof (keeps_update_model m c) as Cr. fold (bound m c) in Cr. pose proof (core_weight _ _ Cr) as CW. unfold weight in Wt, CW. injection Wt as Wt _. injection CW as CW _.
    split; [change (snd (update_model m c)) with (bound m c) in CW; congruence|]. split; [|exact K]. destruct K as (_ & _ & K & _). rewrite K. unfold core in Cr. change (snd (update_model m c)) with (bound m c) in Cr. now injection Cr. }
  assert (Ln : List.length cs = List.length (jd_comps pd)). { apply Forall2_length in S4. rewrite combine_length, map_length, seq_length, Nat.min_id in S4. exact S4. }
  clear - G Ln. revert G Ln. generalize (jd_comps pd). generalize (Forall keeps_limits os). intros F. induction cs as [|c cs IH]; intros [|e l] G Ln; cbn in Ln; try discriminate; constructor; [exact (G 0 c e eq_refl eq_refl)|]. apply IH; [|lia]. intros i. exact (G (S i)).
Qed.
