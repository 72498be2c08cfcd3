(** Proofs of C96, continued: closed forms and examples/cassie_squat.py. *)
From Verif Require Import Base Lin LinFacts Mjx Typing Component Problem SpecComponent SpecJoint SpecHistory SpecTyping SpecCollision SpecTree SpecShape SpecContact SpecSelf SpecValue SpecProblem SpecQP SpecFit SpecTrace SpecSetup.
From Verif Require Import ComponentFacts SetupFacts SetupFacts2 SetupFacts5 Conf JaxComponents LocalIK GlobalIK SpecMotion SpecSolve SpecGlobal SpecClosed SpecGLoop SpecAnyLoop ClosedThms2 AnyLoopThms.
Open Scope R_scope.
#[local] Arguments update_model : simpl never.
#[local] Arguments jax_component : simpl never.
#[local] Arguments build_component : simpl never.

Lemma loop_outcome m lo hi cs L So dt turns q s : sound_model m -> wf_tensor lo -> wf_tensor hi -> Forall constructed cs -> Forall (fun c => wf_arrays (c_at c)) cs ->
  limit_fits m lo -> limit_fits m hi -> NoDup (map nm cs) -> Forall (fun c => exists d, suits m c d) cs -> Forall (plain m) cs ->
  sound_lib L m -> (forall q, List.length q = m_nq m -> wf_data m (update L m q) /\ Forall (evaluates L m q) cs) -> one_entry_each So -> Forall (Forall loop_call) turns -> List.length q = m_nq m ->
  let prog := setup m lo hi cs in
  (exists tr qn, control_loop L So m dt prog turns q s tr qn /\ List.length tr = List.length turns /\ List.length qn = m_nq m) \/
  (exists ts os ts' tr q' pd, turns = ts ++ os :: ts' /\ control_loop L So m dt prog ts q s tr q' /\ List.length tr = List.length ts /\ List.length q' = m_nq m /\
     compiled_by (prog ++ calls_of ts ++ os) 0 pd /\ (forall s', solve L So m (tvec q') s' pd = Err NonFinite) /\ idle_barrier L (update L m q') pd).
Proof.
  intros Hm Wl Wh Hc Hw Fl Fh Nd Hs Hpl HL Hd Hone Ht Hq. cbv zeta.
  pose proof (any_loop m lo hi cs Hm Wl Wh Hc Hw Fl Fh Nd Hs Hpl L So dt turns HL Hd Hone Ht [] q s ltac:(constructor) Hq) as H. rewrite app_nil_r in H. exact H.
Qed.
Lemma calls_loop ts : Forall (Forall loop_call) ts -> Forall loop_call (calls_of ts).
Proof.
  induction 1 as [|os ts H _ IH]; [constructor|]. unfold calls_of. cbn. apply Forall_app. split; [apply Forall_app; split; [exact H|repeat constructor]|exact IH].
Qed.
Lemma tame_loop m lo hi cs L So dt turns q s : sound_model m -> wf_tensor lo -> wf_tensor hi -> Forall constructed cs -> Forall (fun c => wf_arrays (c_at c)) cs ->
  limit_fits m lo -> limit_fits m hi -> NoDup (map nm cs) -> Forall (fun c => exists d, suits m c d) cs -> Forall (plain m) cs -> Forall (tame m) cs ->
  sound_lib L m -> (forall q, List.length q = m_nq m -> wf_data m (update L m q) /\ Forall (evaluates L m q) cs) -> one_entry_each So -> Forall (Forall loop_call) turns -> List.length q = m_nq m ->
  exists tr qn, control_loop L So m dt (setup m lo hi cs) turns q s tr qn /\ List.length tr = List.length turns /\ List.length qn = m_nq m.
Proof.
  intros Hm Wl Wh Hc Hw Fl Fh Nd Hs Hpl Htm HL Hd Hone Ht Hq.
  destruct (loop_outcome m lo hi cs L So dt turns q s Hm Wl Wh Hc Hw Fl Fh Nd Hs Hpl HL Hd Hone Ht Hq) as [H|(ts & os & ts' & tr & q' & pd & -> & C & _ & _ & Hpd & _ & X)]; [exact H|]. exfalso.
  apply Forall_app in Ht as [H1 H2]. apply (tame_bar m lo hi cs Hm Wl Wh Hc Hw Fl Fh Nd Hs Hpl (calls_of ts ++ os) pd L (update L m q')); [|exact Hpd|exact Htm|exact X].
  apply Forall_app. split; [now apply calls_loop|exact (Forall_inv H2)].
Qed.
Lemma any_limits m lo hi cs L So dt turns q s tr qn : sound_model m -> wf_tensor lo -> wf_tensor hi -> Forall constructed cs -> Forall (fun c => wf_arrays (c_at c)) cs ->
  limit_fits m lo -> limit_fits m hi -> NoDup (map nm cs) -> Forall (fun c => exists d, suits m c d) cs -> Forall (plain m) cs ->
  sound_lib L m -> (forall q, List.length q = m_nq m -> wf_data m (update L m q) /\ Forall (evaluates L m q) cs) -> keeps_scalars L m -> Forall (mild dt) cs -> 0 <= dt ->
  Forall (Forall loop_call) turns -> Forall (Forall keeps_limits) turns -> List.length q = m_nq m -> Forall (in_limits m q) cs ->
  control_loop L So m dt (setup m lo hi cs) turns q s tr qn -> Forall (exact_turn L So m) tr ->
  Forall (possible_turn L m) tr \/ (below_zero lo /\ above_zero hi /\ Forall (tame m) cs /\ Forall soft_component cs) ->
  Forall (in_limits m qn) cs /\ Forall (fun t => let '(q, pd, v) := t in Forall (in_limits m q) cs /\ best L (update L m q) pd v) tr.
Proof.
  intros Hm Wl Wh Hc Hw Fl Fh Nd Hs Hpl HL Hd Hks Hmi Hdt Ht Hk Hq Hin C Hex Hp.
  apply (any_loop_safe m lo hi cs Hm Wl Wh Hc Hw Fl Fh Nd Hs Hpl L So dt Hmi Hdt HL Hks Hd turns [] q s tr qn Ht Hk); auto. rewrite app_nil_r. exact C.
Qed.

(** The components of examples/cassie_squat.py. *)
Lemma masked_frame n cost g s lm a b c d e f ft m i : new_frame_task n (tscalar cost) (tscalar g) s OBody None lm (Some (mvec [a; b; c; d; e; f]%Z)) = Ok ft -> has_object m OBody s i ->
  constructed ft /\ wf_arrays (c_at ft) /\ (exists k, suits m ft k) /\ plain m ft /\ nm ft = n /\ tame m ft /\ soft_component ft /\ (forall dt, mild dt ft) /\ (forall q, in_limits m q ft) /\ forall L q, evaluates L m q ft.
Proof.
  intros H Hi. split; [now apply made_frame_task in H|]. unfold new_frame_task, init_task in H. cbn [bind] in H. destruct (Rlt_dec lm 0); [discriminate|]. 
  unfold init_component in H. cbn in H. injection H as <-. split; [split; reflexivity|]. split; [|split; [split; [exact I|exists se3_identity; split; reflexivity]|repeat split]].
  eexists. split; [now left|]. split; [now left|]. split; [reflexivity|]. now exists i.
Qed.
Lemma com_ready n cost g lm ct m : new_com_task n (tscalar cost) (tscalar g) None lm (Some (mvec [1; 1; 1]%Z)) = Ok ct ->
  constructed ct /\ wf_arrays (c_at ct) /\ (exists k, suits m ct k) /\ plain m ct /\ nm ct = n /\ tame m ct /\ soft_component ct /\ (forall dt, mild dt ct) /\ (forall q, in_limits m q ct) /\ forall L q, evaluates L m q ct.
Proof.
  intros H. split; [now apply made_com_task in H|]. unfold new_com_task, init_task in H. cbn [bind mk_shape mvec] in H. cbn in H. destruct (Rlt_dec lm 0); [discriminate|]. cbn in H. injection H as <-.
  split; [split; reflexivity|]. split; [|split; [eexists; reflexivity|repeat split]]. exists 3%nat. split; [now left|]. split; [now left|]. reflexivity.
Qed.
Lemma equality_ready n g h eq m : new_model_equality n (tscalar g) h None = Ok eq -> Forall eq_supported (m_eq_type m) ->
  constructed eq /\ wf_arrays (c_at eq) /\ (exists k, suits m eq k) /\ plain m eq /\ nm eq = n /\ tame m eq /\ (soft_component eq <-> h = false) /\ (forall dt, mild dt eq) /\ (forall q, in_limits m q eq) /\
  forall L q, List.length (flagged (d_efc_pos (update L m q)) (d_efc_is_equality (update L m q))) = eq_total m -> evaluates L m q eq.
Proof.
  intros H Hs. split; [now apply made_model_equality in H|]. unfold new_model_equality in H. cbn in H. injection H as <-. split; [repeat split|]. split; [|split; [exact I|split; [reflexivity|split; [exact I|split; [|split; [repeat split|split; [repeat split|intros L q E; exact E]]]]]]].
  - exists (eq_total m). split; [now left|]. cbn. auto.
  - cbn. destruct h; split; intros X; try discriminate; try contradiction; auto.
Qed.
Lemma cassie_loop m s1 s2 s3 i1 i2 i3 lo hi k1 k2 k3 g1 g2 g3 g4 g5 lm d1 ct tt' jb lf rf eq L So dt turns q s0 : sound_model m ->
  has_object m OBody s1 i1 -> has_object m OBody s2 i2 -> has_object m OBody s3 i3 -> (0 < n_scalar m)%nat -> Forall eq_supported (m_eq_type m) -> lo <= 0 -> 0 <= hi ->
  new_com_task "com_task" (tscalar k1) (tscalar g1) None lm (Some (mvec [1; 1; 1]%Z)) = Ok ct ->
  new_frame_task "torso_task" (tscalar k2) (tscalar g2) s1 OBody None lm (Some (mvec [0; 0; 0; 1; 1; 1]%Z)) = Ok tt' ->
  new_joint_barrier "jnt_range" (tscalar g3) None d1 None None None = Ok jb ->
  new_frame_task "left_foot_task" (tscalar k3) (tscalar g4) s2 OBody None lm (Some (mvec [1; 1; 1; 1; 0; 1]%Z)) = Ok lf ->
  new_frame_task "right_foot_task" (tscalar k3) (tscalar g4) s3 OBody None lm (Some (mvec [1; 1; 1; 1; 0; 1]%Z)) = Ok rf ->
  new_model_equality "equality_constraint" (tscalar g5) false None = Ok eq ->
  sound_lib L m -> keeps_scalars L m ->
  (forall q, List.length q = m_nq m -> wf_data m (update L m q) /\ List.length (flagged (d_efc_pos (update L m q)) (d_efc_is_equality (update L m q))) = eq_total m) ->
  one_entry_each So -> 0 <= dt -> 0 <= g3 -> g3 * dt <= 1 -> Forall (Forall loop_call) turns -> Forall (Forall keeps_limits) turns -> List.length q = m_nq m -> in_range m q ->
  exists tr qn, control_loop L So m dt (setup m (tscalar lo) (tscalar hi) [ct; tt'; jb; lf; rf; eq]) turns q s0 tr qn /\ List.length tr = List.length turns /\
  (Forall (exact_turn L So m) tr -> in_range m qn /\ Forall (fun t => let '(q, pd, v) := t in in_range m q /\ best L (update L m q) pd v) tr).
Proof.
  intros Hm H1 H2 H3 Hn He Hlo Hhi Hct Htt Hjb Hlf Hrf Heq HL Hks Hd Hone Hdt Hg Hgd Ht Hk Hq Hin. set (cs := [ct; tt'; jb; lf; rf; eq]).
  pose proof (com_ready _ _ _ _ _ m Hct) as (C1 & C2 & C3 & C4 & C5 & C6 & C7 & C8 & C9 & C10).
  pose proof (masked_frame _ _ _ _ _ _ _ _ _ _ _ _ m i1 Htt H1) as (T1 & T2 & T3 & T4 & T5 & T6 & T7 & T8 & T9 & T10).
  pose proof (masked_frame _ _ _ _ _ _ _ _ _ _ _ _ m i2 Hlf H2) as (L1 & L2 & L3 & L4 & L5 & L6 & L7 & L8 & L9 & L10).
  pose proof (masked_frame _ _ _ _ _ _ _ _ _ _ _ _ m i3 Hrf H3) as (R1 & R2 & R3 & R4 & R5 & R6 & R7 & R8 & R9 & R10).
  pose proof (equality_ready _ _ _ _ m Heq He) as (E1 & E2 & E3 & E4 & E5 & E6 & E7 & E8 & E9 & E10).
  destruct (limits_suits _ _ _ _ _ m Hjb) as (J1 & J2 & J3 & J4 & J5).
  pose proof (limits_track m _ _ _ _ _ Hn Hjb) as J6. pose proof (limits_mild _ _ _ _ dt Hg Hgd Hjb) as J8. pose proof (fun x => limits_range m x _ _ _ _ _ Hjb) as J9.
  assert (J7 : soft_component jb /\ tame m jb /\ forall L q, evaluates L m q jb). { apply limits_new in Hjb. subst jb. cbn in *. repeat split. exact J6. } destruct J7 as (J7 & J7' & J10).
  assert (all : forall P : comp -> Prop, P ct -> P tt' -> P jb -> P lf -> P rf -> P eq -> Forall P cs) by (intros; unfold cs; repeat (constructor; [assumption|]); constructor).
  assert (A1 : Forall constructed cs) by (apply all; assumption).
  assert (A2 : Forall (fun c => wf_arrays (c_at c)) cs) by (apply all; assumption).
  assert (A3 : Forall (fun c => exists d, suits m c d) cs) by (apply all; eauto).
  assert (A4 : NoDup (map nm cs)). { unfold cs. cbn [map]. rewrite C5, T5, J5, L5, R5, E5. repeat constructor; cbn; intuition discriminate. }
  assert (A5 : Forall (plain m) cs) by (apply all; assumption).
  assert (A6 : Forall (tame m) cs) by (apply all; assumption).
  assert (A7 : forall x, List.length x = m_nq m -> wf_data m (update L m x) /\ Forall (evaluates L m x) cs). { intros x Hx. destruct (Hd x Hx) as [W F]. split; [exact W|]. apply all; auto. }
  assert (A8 : forall x, Forall (in_limits m x) cs <-> in_range m x).
  { intros x. rewrite <- J9. split; [intros H; rewrite Forall_forall in H; apply H; right; right; now left|]. intros H. apply all; auto. }
  assert (A9 : Forall (mild dt) cs) by (apply all; auto).
  destruct (tame_loop m (tscalar lo) (tscalar hi) cs L So dt turns q s0 Hm eq_refl eq_refl A1 A2 ltac:(now left) ltac:(now left) A4 A3 A5 A6 HL A7 Hone Ht Hq) as (tr & qn & C & Lt & Ln).
  exists tr, qn. split; [exact C|]. split; [exact Lt|]. intros Hex.
  destruct (any_limits m (tscalar lo) (tscalar hi) cs L So dt turns q s0 tr qn Hm eq_refl eq_refl A1 A2 ltac:(now left) ltac:(now left) A4 A3 A5 HL A7 Hks A9 Hdt Ht Hk Hq ltac:(now apply A8) C Hex) as [B1 B2].
  { right. split; [constructor; [exact Hlo|constructor]|]. split; [constructor; [exact Hhi|constructor]|]. split; [exact A6|]. apply all; auto. now apply E7. }
  split; [now apply A8|]. eapply Forall_impl; [|exact B2]. intros [[q' pd] v] [H' H'']. split; [now apply A8|exact H''].
Qed.
