(** C120: batches of poses on the robot of README.md. *)
From Verif Require Import Base Lin LinFacts Mjx Typing Component Problem SpecComponent SpecJoint SpecHistory SpecTyping SpecCollision SpecTree SpecShape SpecContact SpecValue SpecProblem SpecQP SpecFit SpecTrace SpecSetup.
From Verif Require Import ProblemFacts ProbThms FrameFacts FitFacts SetupFacts SetupFacts2 SetupFacts3 SetupFacts4 SetupFacts5 SetupCases Conf JaxComponents LocalIK SpecMotion SpecLoop SpecSolve SpecClosed JaxTree SpecJaxTree SpecBatch SpecVmap BatchFacts BatchThms JaxTreeThms VmapFacts ClosedThms ClosedThms2 SpecLanes LanesLoop LanesRun.
Open Scope nat_scope.
#[local] Arguments update_model : simpl never.
#[local] Arguments step : simpl never.

(** One turn: a stack of poses for the task with number [k] and name [n]. *)
Definition pose_turn (k : nat) (n : string) (T : tensor) : list call := [(k, n, OpTargetFrame (FArr T))].

Lemma poses_stacked m lo hi cs N k c cost lm o t0 Ts : sound_model m -> wf_tensor lo -> wf_tensor hi -> Forall constructed cs -> Forall (fun c => wf_arrays (c_at c)) cs ->
  limit_fits m lo -> limit_fits m hi -> NoDup (map nm cs) -> Forall (fun c => exists d, suits m c d) cs ->
  nth_error cs k = Some c -> a_ext (c_at c) = XTask cost lm (TFrame o t0) -> Forall (fun T => wf_tensor T /\ t_shape T = [N; 7]) Ts ->
  forall os, Forall steering os -> stacked N [["components"; nm c; "target_frame"]%string] (setup m lo hi cs ++ os) (map (pose_turn k (nm c)) Ts).
Proof.
  intros Hm Wl Wh Hc Hw Fl Fh Nd Hs Hk He HT. induction Ts as [|T Ts IH]; intros os Ho; [exact I|]. destruct (Forall_inv HT) as [WT ST].
  destruct (frame_batch m lo hi cs os N T k c cost lm o t0 Hm Wl Wh Hc Hw Fl Fh Nd Hs Ho Hk He WT ST) as [B _]. cbn [map stacked]. split; [exact B|].
  split; [intros p; cbn; tauto|]. destruct (batched_loop m lo hi cs os N _ Hm Wl Wh Hc Hw Fl Fh Nd Hs Ho B) as (pd & _ & _ & C & _).
  split; [exists pd; exact C|]. rewrite <- app_assoc. apply (IH (Forall_inv_tail HT)). apply Forall_app. split; [exact Ho|].
  constructor; [|constructor; [split; exact I|constructor]]. pose proof (batch_batched _ _ _ _ B) as X. exact (step_steers N _ k (Forall_inv X)).
Qed.

Lemma readme_batches m s i0 lo hi cost g1 g2 lm d0 ft jb L So dt N Ts q s0 : sound_model m -> has_object m OBody s i0 -> 0 < n_scalar m ->
  wf_tensor lo -> wf_tensor hi -> limit_fits m lo -> limit_fits m hi -> below_zero lo -> above_zero hi ->
  new_frame_task "ee_task" (tscalar cost) (tscalar g1) s OBody None lm None = Ok ft ->
  new_joint_barrier "jnt_range" (tscalar g2) None d0 None None None = Ok jb ->
  (0 <= dt)%R -> (0 <= g2)%R -> (g2 * dt <= 1)%R -> sound_lib L m -> keeps_scalars L m -> (forall q, List.length q = m_nq m -> wf_data m (update L m q)) -> one_entry_each So ->
  Forall (fun T => wf_tensor T /\ t_shape T = [N; 7]) Ts -> Ts <> [] -> (forall i, i < N -> List.length (q i) = m_nq m) ->
  let prog := setup m lo hi [ft; jb] in
  exists t tm tr qn, fst (set_vmap_dimension 0 (state prog)) = Ok t /\ set_axes [["components"; "ee_task"; "target_frame"]%string] t = Ok tm /\
    vmapped_loop L So m dt N tm (prog ++ [WCompile 0]) (map (pose_turn 0 "ee_task") Ts) q s0 tr qn /\
    forall i, i < N -> List.length (qn i) = m_nq m /\
      (in_range m (q i) -> Forall (exact_turn L So m) (lane i tr) -> in_range m (qn i) /\ Forall (fun t => in_range m (fst (fst t) i)) tr).
Proof.
  intros Hm Ho Hn Wl Wh Fl Fh Bl Bh Hf Hj Hdt Hg Hgd HL Hks Hd Hone HT Hne Hq prog.
  destruct (frame_suits _ _ _ _ _ _ _ _ Hf Ho) as (F1 & F2 & F3 & F4 & F5). destruct (limits_suits _ _ _ _ _ m Hj) as (J1 & J2 & J3 & J4 & J5).
  assert (Hc : Forall constructed [ft; jb]) by (apply two; assumption).
  assert (Hw : Forall (fun c => wf_arrays (c_at c)) [ft; jb]) by (apply two; assumption).
  assert (Nd : NoDup (map nm [ft; jb])). { cbn. rewrite F5, J5. constructor; [intros [X|[]]; discriminate|]. constructor; [intros []|constructor]. }
  assert (Hs : Forall (fun c => exists d, suits m c d) [ft; jb]) by (apply two; eauto).
  assert (Hpl : Forall (plain m) [ft; jb]) by (apply two; assumption).
  pose proof (frame_new _ _ _ _ _ _ Hf) as Ef.
  assert (Htr : Forall (tracks m) [ft; jb]). { constructor; [|constructor; [exact (limits_track _ _ _ _ _ _ Hn Hj)|constructor]]. now subst ft. }
  assert (Hmi : Forall (mild dt) [ft; jb]). { constructor; [|constructor; [exact (limits_mild _ _ _ _ _ Hg Hgd Hj)|constructor]]. now subst ft. }
  assert (Hil : forall x, Forall (in_limits m x) [ft; jb] <-> in_range m x).
  { intros x. rewrite <- (limits_range m x _ _ _ _ _ Hj). split; [intros H; exact (Forall_inv (Forall_inv_tail H))|]. intros H. constructor; [|constructor; [exact H|constructor]]. now subst ft. }
  assert (He : exists o t0, a_ext (c_at ft) = XTask (tscalar cost) lm (TFrame o t0)) by (rewrite Ef; do 2 eexists; reflexivity). destruct He as (o & t0 & He).
  pose proof (poses_stacked m lo hi [ft; jb] N 0 ft _ _ _ _ Ts Hm Wl Wh Hc Hw Fl Fh Nd Hs eq_refl He HT [WCompile 0] ltac:(repeat constructor)) as S. rewrite F5 in S. fold prog in S.
  assert (Lg : Forall legal prog) by now apply setup_legal.
  destruct (loop_compiles m lo hi [ft; jb] [] Hm Wl Wh Hc Hw Fl Fh Nd Hs ltac:(constructor)) as (pd & Cp & _). rewrite app_nil_r in Cp.
  assert (Tt : exists t, fst (set_vmap_dimension 0 (state prog)) = Ok t).
  { pose proof (template_outcome 0 (state prog)) as T. assert (X : fst (compile 0 (state prog)) = Ok (OData pd)) by exact Cp.
    destruct (compile 0 (state prog)) as [[o'|e] w'] eqn:E; cbn in X; [|discriminate]. injection X as ->. destruct T as [t T]. exists t. now rewrite T. }
  destruct Tt as [t Tt]. destruct (template_takes_axes N prog t _ _ Lg Tt S) as [tm Ha]; [destruct Ts; [congruence|discriminate]|].
  assert (V : Forall (Forall (fun k => vectors N (snd k))) (map (pose_turn 0 "ee_task") Ts)).
  { rewrite Forall_map. eapply Forall_impl; [|exact HT]. intros T [WT ST]. constructor; [|constructor]. exists T, 7. cbn. auto. }
  assert (K : Forall (Forall (fun k => keeps_limits (as_step k))) (map (pose_turn 0 "ee_task") Ts)).
  { rewrite Forall_map. apply Forall_forall. intros T _. constructor; [exact I|constructor]. }
  destruct (batches_run m lo hi [ft; jb] Hm Wl Wh Hc Hw Fl Fh Nd Hs Hpl Htr L So dt N _ t tm _ q s0 HL Hd Hone Tt Ha S V Hq) as (tr & qn & J & Ln).
  exists t, tm, tr, qn. split; [exact Tt|]. split; [exact Ha|]. split; [exact J|]. intros i Hi. split; [now apply Ln|]. intros Hr Hex.
  destruct (batches_safe m lo hi [ft; jb] Hm Wl Wh Hc Hw Fl Fh Nd Hs Hpl Htr L So dt N _ t tm _ q s0 tr qn Bl Bh Hmi Hdt HL Hks Hd Tt Ha S V K J i Hi (Hq i Hi)) as [R1 R2]; [now apply Hil|exact Hex|].
  split; [now apply Hil|]. eapply Forall_impl; [|exact R2]. intros x H. now apply Hil.
Qed.
