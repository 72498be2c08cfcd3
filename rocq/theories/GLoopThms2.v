(** Proofs of C95, continued. *)
From Verif Require Import Base Lin LinFacts Mjx Typing Component Problem SpecComponent SpecJoint SpecHistory SpecTyping SpecCollision SpecTree SpecShape SpecContact SpecSelf SpecValue SpecProblem SpecQP SpecFit SpecTrace SpecSetup.
From Verif Require Import ComponentFacts SetupFacts SetupFacts2 SetupFacts5 Conf JaxComponents GlobalIK SpecMotion SpecGlobal SpecClosed SpecGLoop GLoopFacts GLoopThms ClosedThms.
Open Scope R_scope.
#[local] Arguments update_model : simpl never.
#[local] Arguments jax_component : simpl never.
#[local] Arguments build_component : simpl never.

Lemma global_loop_runs m lo hi cs L grad O dt turns q st : sound_model m -> wf_tensor lo -> wf_tensor hi -> Forall constructed cs -> Forall (fun c => wf_arrays (c_at c)) cs ->
  limit_fits m lo -> limit_fits m hi -> NoDup (map nm cs) -> Forall (fun c => exists d, suits m c d) cs -> Forall (plain m) cs -> Forall (fun c => ~ constraint_component c) cs ->
  sound_lib L m -> (forall q, List.length q = m_nq m -> wf_data m (update L m q) /\ Forall (evaluates L m q) cs) -> traces grad -> step_keeps_length O ->
  Forall (Forall loop_call) turns -> List.length q = m_nq m ->
  exists tr qn, global_loop L grad O m dt (setup m lo hi cs) turns q st tr qn /\ List.length tr = List.length turns /\ List.length qn = m_nq m.
Proof.
  intros Hm Wl Wh Hc Hw Fl Fh Nd Hs Hpl Hnc HL Hd Ht Hk Hts Hq.
  destruct (gloop_runs m lo hi cs Hm Wl Wh Hc Hw Fl Fh Nd Hs Hpl L grad O dt turns Hnc HL (fun q h => proj2 (Hd q h)) (fun q h => proj1 (Hd q h)) Ht Hk Hts [] q st ltac:(constructor) Hq) as (tr & qn & C & H).
  rewrite app_nil_r in C. eauto.
Qed.
Lemma global_loop_stops m lo hi cs L grad O dt os turns q st : sound_model m -> wf_tensor lo -> wf_tensor hi -> Forall constructed cs -> Forall (fun c => wf_arrays (c_at c)) cs ->
  limit_fits m lo -> limit_fits m hi -> NoDup (map nm cs) -> Forall (fun c => exists d, suits m c d) cs -> Forall (plain m) cs -> Exists constraint_component cs ->
  sound_lib L m -> wf_data m (update L m q) -> Forall (evaluates L m q) cs -> traces grad -> Forall loop_call os -> List.length q = m_nq m ->
  (exists pd, compiled_by (setup m lo hi cs ++ os) 0 pd /\ gsolve L grad O m dt (tvec q) st pd = Err NotImplementedError) /\
  forall tr qn, ~ global_loop L grad O m dt (setup m lo hi cs) (os :: turns) q st tr qn.
Proof.
  intros Hm Wl Wh Hc Hw Fl Fh Nd Hs Hpl Hx HL Hd He Ht Ho Hq.
  destruct (gturn_fails m lo hi cs Hm Wl Wh Hc Hw Fl Fh Nd Hs Hpl os L grad O dt q st Ho Hx HL He Ht Hq Hd) as (pd & A & B). split; [eauto|].
  intros tr qn H. inversion H as [|? ? ? ? ? pd' ? ? ? ? ? A' B']; subst. assert (pd' = pd) by (unfold compiled_by in *; congruence). subst. congruence.
Qed.

(** The problem of examples/global_ik.py. *)
Lemma global_ik_loop m s i lo hi cost g1 g2 g3 g4 lm px d1 d2 d3 dm ft pb jb sc L grad O dt turns q st : sound_model m -> has_object m OBody s i ->
  new_frame_task "ee_task" (tscalar cost) (tscalar g1) s OBody None lm None = Ok ft ->
  new_position_barrier "ee_barrier" (tscalar g2) s OBody None (Some (tscalar px)) "max" None d1 (Some (mvec [1; 0; 0]%Z)) = Ok pb ->
  new_joint_barrier "jnt_range" (tscalar g3) None d2 None None None = Ok jb ->
  new_self_collision "self_collision_barrier" (tscalar g4) None d3 dm [] [] (-1) = Ok sc ->
  sound_lib L m -> (forall q, List.length q = m_nq m -> wf_data m (update L m q)) ->
  (forall ps, checks_exactly m (all_bodies m) [] ps -> ps <> [] /\ full_table (l_coll L) m ps) ->
  traces grad -> step_keeps_length O -> Forall (Forall loop_call) turns -> List.length q = m_nq m ->
  exists tr qn, global_loop L grad O m dt (setup m (tscalar lo) (tscalar hi) [ft; pb; jb; sc]) turns q st tr qn /\ List.length tr = List.length turns /\ List.length qn = m_nq m.
Proof.
  intros Hm Hi Hf Hp Hj Hg HL Hd Hps Ht Hk Hts Hq.
  destruct (frame_suits _ _ _ _ _ _ m i Hf Hi) as (F1 & F2 & F3 & F4 & F5). destruct (wall_suits _ _ _ _ _ _ m i Hp Hi) as (P1 & P2 & P3 & P4 & P5).
  destruct (limits_suits _ _ _ _ _ m Hj) as (J1 & J2 & J3 & J4 & J5). destruct (guard_suits _ _ _ _ _ m Hg Hm) as (G1 & G2 & (ps & C & G3) & G4 & G5).
  assert (A1 : Forall constructed [ft; pb; jb; sc]) by (repeat constructor; assumption).
  assert (A2 : Forall (fun c => wf_arrays (c_at c)) [ft; pb; jb; sc]) by (repeat (constructor; [assumption|]); constructor).
  assert (A3 : Forall (fun c => exists d, suits m c d) [ft; pb; jb; sc]) by (repeat (constructor; [eexists; eassumption|]); constructor).
  assert (A4 : NoDup (map nm [ft; pb; jb; sc])). { cbn [map]. rewrite F5, P5, J5, G5. repeat constructor; cbn; intuition discriminate. }
  assert (A5 : Forall (plain m) [ft; pb; jb; sc]) by (repeat (constructor; [assumption|]); constructor).
  apply frame_new in Hf. apply wall_new in Hp. apply limits_new in Hj. apply guard_new in Hg.
  apply global_loop_runs; try assumption; try reflexivity; try (left; reflexivity).
  - subst. repeat (constructor; [exact (fun H => H)|]). constructor.
  - intros x Hx. split; [auto|]. subst. repeat (constructor; [exact I|]). constructor; [|constructor].
    unfold evaluates. cbn [c_at a_ext new_comp sc_bodies sc_excl_raw sc_n]. intros ids ex ps' H1 H2 H3. unfold lists_bodies in H1. subst ids. inversion H2; subst. destruct (Hps ps' H3) as [A B]. split; [exact A|]. split; [exact B|lia].
Qed.

(** Convergence of posture descent. *)
Lemma power_fades a d e : Rabs a < 1 -> 0 < e -> exists N, forall n, (N <= n)%nat -> Rabs (a ^ n * d) < e.
Proof.
  intros Ha He. destruct (pow_lt_1_zero a Ha (e / (1 + Rabs d))) as [N HN].
  { apply Rdiv_lt_0_compat; [exact He|]. pose proof (Rabs_pos d). lra. }
  exists N. intros n Hn. specialize (HN n Hn). rewrite Rabs_mult. pose proof (Rabs_pos d).
  apply Rle_lt_trans with (e / (1 + Rabs d) * Rabs d); [apply Rmult_le_compat_r; lra|].
  unfold Rdiv. rewrite Rmult_assoc. rewrite <- (Rmult_1_r e) at 2. apply Rmult_lt_compat_l; [exact He|]. apply (Rmult_lt_reg_l (1 + Rabs d)); [lra|]. rewrite <- Rmult_assoc, Rinv_r by lra. lra.
Qed.
Lemma power_stays a d n : 1 <= Rabs a -> Rabs d <= Rabs (a ^ n * d).
Proof.
  intros Ha. rewrite Rabs_mult, <- RPow_abs. rewrite <- (Rmult_1_l (Rabs d)) at 1. apply Rmult_le_compat_r; [apply Rabs_pos|]. now apply pow_R1_Rle.
Qed.
Lemma posture_converges L grad m pd fm j t r dt q st k x : sound_grad grad -> keeps_scalars L m -> jd_model pd = m -> j_model j = m -> comps_of pd = [j] -> joint_task fm j -> has_target j t ->
  List.length q = m_nq m -> nth_error (selected m fm) k = Some x -> nth (qpos_of m x) q 0 <> nth k t 0 ->
  ((forall e, 0 < e -> exists N, forall n qn, (N <= n)%nat -> gsteps L grad (descent r) m dt pd n q st qn -> Rabs (nth (qpos_of m x) qn 0 - nth k t 0) < e) <->
   0 < r * nth k (j_gain j) 0 < 1).
Proof.
  intros Hg Hk Em Ej Ec Hj Ht Hq Hx Hne. set (g := nth k (j_gain j) 0). set (d := nth (qpos_of m x) q 0 - nth k t 0).
  assert (A : forall n qn, gsteps L grad (descent r) m dt pd n q st qn -> nth (qpos_of m x) qn 0 - nth k t 0 = (1 - 2 * r * g) ^ n * d).
  { intros n qn H. now apply (posture_after L grad m pd fm j t Hg Hk Em Ej Ec Hj Ht r dt n q st qn Hq H). }
  assert (D : 0 < Rabs d) by (apply Rabs_pos_lt; unfold d; lra). split.
  - intros H. destruct (Rlt_dec (Rabs (1 - 2 * r * g)) 1) as [Ha|Ha]; [apply Rabs_def2 in Ha; lra|]. exfalso.
    destruct (H (Rabs d) D) as [N HN]. destruct (posture_steps L grad m pd fm j t Hg Hk Em Ej Ec Hj Ht r dt N q st Hq) as [qn Hn]. specialize (HN N qn (Nat.le_refl _) Hn). rewrite (A N qn Hn) in HN.
    pose proof (power_stays (1 - 2 * r * g) d N). lra.
  - intros H e He. assert (Ha : Rabs (1 - 2 * r * g) < 1) by (apply Rabs_def1; lra). destruct (power_fades _ d e Ha He) as [N HN]. exists N. intros n qn Hn Hs. rewrite (A n qn Hs). now apply HN.
Qed.
