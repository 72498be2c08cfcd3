(** Lemmas behind C93. *)
From Verif Require Import Base Lin LinFacts Mjx Typing Component Problem SpecComponent SpecJoint SpecHistory SpecTyping SpecCollision SpecTree SpecShape SpecContact SpecValue SpecProblem SpecQP SpecFit SpecTrace SpecSetup JaxTree SpecJaxTree SpecBatch SpecVmap.
From Verif Require Import JaxComponents LocalIK ProblemFacts ProbThms FitFacts FitFacts3 JaxTreeThms JitFacts BatchFacts BatchFacts2 BatchFacts3 BatchThms SetupFacts SetupFacts2 SetupFacts3 SetupFacts4 SetupFacts5.
From Coq Require Import Permutation.
Open Scope nat_scope.
#[local] Arguments update_model : simpl never.
#[local] Arguments jax_component : simpl never.
#[local] Arguments build_component : simpl never.
#[local] Arguments row : simpl never.

Lemma row_is_vector i N t d : wf_tensor t -> t_shape t = [N; d] -> i < N -> vec_of_length d (row i t).
Proof.
  intros H1 H2 Hi. destruct (row_array i N t [d] H1 H2 Hi) as [A B]. unfold wf_tensor in A. rewrite B in A. cbn in A. rewrite Nat.mul_1_r in A.
  exists (t_data (row i t)). split; [|exact A]. destruct (row i t) as [s dd]; cbn in *. subst s. unfold tvec. now rewrite A.
Qed.
Lemma batch_batched N pi ks : forall w, batch N pi ks w -> Forall (fun k : SpecBatch.call => batched N (snd k)) ks.
Proof. induction ks as [|[[ci n] o] ks IH]; intros w H; constructor; [apply H|]. apply (IH (snd (step (WCop ci o) w))), H. Qed.
Lemma step_steers N o ci : batched N o -> steering (WCop ci o).
Proof. intros (t & s & A & _). destruct o; try discriminate; (split; [apply tune_call; exact I|exact I]). Qed.
Lemma row_batched_steers N i o ci : batched N o -> steering (WCop ci (with_row i o)).
Proof. intros (t & s & A & _). destruct o as [| | | | |[]| | | | | | | | |]; try discriminate; (split; [apply tune_call; exact I|exact I]). Qed.
Lemma row_plain N i o ci : vectors N o -> i < N -> plain_call (WCop ci (with_row i o)) /\ proper (WCop ci (with_row i o)).
Proof.
  intros (t & d & A & Wt & St & S) Hi. pose proof (row_is_vector i N t d Wt St Hi) as (v & E & Lv).
  destruct o as [| | | | |[]| | | | | | | | |]; try discriminate; injection A as ->; split; try exact I; cbn; try (now exists v); try (left; now exists v).
  subst d. now exists v.
Qed.
Lemma fits_well L nv d j : fits L nv d j -> well_shaped L nv d j.
Proof. intros (J & e & H1 & H2 & H3 & H4 & _) J' e' H1' H2'. assert (J' = J) by congruence. assert (e' = e) by congruence. subst. auto. Qed.

Lemma batched_loop m lo hi cs os N ks : sound_model m -> wf_tensor lo -> wf_tensor hi -> Forall constructed cs -> Forall (fun c => wf_arrays (c_at c)) cs ->
  limit_fits m lo -> limit_fits m hi -> NoDup (map nm cs) -> Forall (fun c => exists d, suits m c d) cs -> Forall steering os ->
  let prog := setup m lo hi cs ++ os in batch N 0 ks (state prog) ->
  exists pd t t', compiled_by (prog ++ map as_step ks) 0 pd /\ fst (set_vmap_dimension 0 (state (prog ++ map as_step ks))) = Ok t /\ set_axes (map place ks) t = Ok t' /\
    forall i, i < N -> exists pd', compiled_by (prog ++ map (as_row i) ks) 0 pd' /\ sample (slice i) t' (data_object (under_jit pd)) = data_object (under_jit pd').
Proof.
  intros Hm Wl Wh Hc Hw Fl Fh Nd Hs Hst prog Hb. subst prog.
  assert (Sk : Forall steering (map as_step ks)). { rewrite Forall_map. eapply Forall_impl; [|exact (batch_batched _ _ _ _ Hb)]. intros [[ci n] o] X. exact (step_steers N o ci X). }
  destruct (loop_compiles m lo hi cs (os ++ map as_step ks) Hm Wl Wh Hc Hw Fl Fh Nd Hs) as (pd & Hpd & _); [now apply Forall_app|]. rewrite app_assoc in Hpd.
  assert (Ht : Forall tuning_step os) by (eapply Forall_impl; [|exact Hst]; intros o [X _]; exact X).
  assert (Hl : Forall legal (setup m lo hi cs ++ os)) by (apply Forall_app; split; [now apply setup_legal|now apply tuned_ops]).
  pose proof (template_outcome 0 (state ((setup m lo hi cs ++ os) ++ map as_step ks))) as T. assert (Hpd0 : fst (compile 0 (state ((setup m lo hi cs ++ os) ++ map as_step ks))) = Ok (OData pd)) by exact Hpd.
  destruct (compile 0 (state ((setup m lo hi cs ++ os) ++ map as_step ks))) as [[o|e] w'] eqn:E; cbn in Hpd0; [|discriminate]. injection Hpd0 as ->. destruct T as [t T].
  assert (Tt : fst (set_vmap_dimension 0 (state ((setup m lo hi cs ++ os) ++ map as_step ks))) = Ok t) by now rewrite T.
  destruct (vmap_lanes _ ks N 0 pd t Hl Hb Hpd Tt) as (t' & A & B). exists pd, t, t'. do 3 (split; [assumption|]).
  intros i Hi. destruct (B i Hi) as (pd' & B1 & _ & B3). now exists pd'.
Qed.
Lemma batched_solves m lo hi cs os N ks : sound_model m -> wf_tensor lo -> wf_tensor hi -> Forall constructed cs -> Forall (fun c => wf_arrays (c_at c)) cs ->
  limit_fits m lo -> limit_fits m hi -> NoDup (map nm cs) -> Forall (fun c => exists d, suits m c d) cs -> Forall (plain m) cs ->
  Forall steering os -> Forall proper os -> Forall plain_call os ->
  let prog := setup m lo hi cs ++ os in batch N 0 ks (state prog) -> Forall (fun k => vectors N (snd k)) ks ->
  forall i, i < N -> exists pd', compiled_by (prog ++ map (as_row i) ks) 0 pd' /\
  forall L So q v, sound_lib L m -> t_shape q = [m_nq m] -> let d := update L m (t_data q) in wf_data m d ->
    (forall j, In j (comps_of pd') -> needs_care j -> accepted L d j) ->
    (exists Q Q', assemble L m pd' d = Ok Q /\ solve L So m q v pd' = Ok (So Q, sol_primal (So Q)) /\
       assemble L m (under_jit pd') d = Ok Q' /\ solve L So m q v (under_jit pd') = Ok (So Q', sol_primal (So Q')) /\
       forall x, optimal (m_nv m) Q x <-> optimal (m_nv m) Q' x) \/
    (solve L So m q v pd' = Err NonFinite /\ exists j J, In j (comps_of pd') /\ is_barrier j = true /\ jacobian L j d = Ok J /\ frob2 J = 0%R /\
       ((exists s l h x, j_ext j = JBarrier s (JBJoint l h x)) -> j_dim j = 0%Z)).
Proof.
  intros Hm Wl Wh Hc Hw Fl Fh Nd Hs Hpl Hst Hpr Hpc prog Hb Hv i Hi. subst prog.
  pose proof (batch_batched _ _ _ _ Hb) as Hbb. rewrite Forall_forall in Hbb, Hv.
  assert (S1 : Forall steering (os ++ map (as_row i) ks)). { apply Forall_app; split; [exact Hst|]. rewrite Forall_map, Forall_forall. intros [[ci n] o] X. exact (row_batched_steers N i o ci (Hbb _ X)). }
  assert (S2 : Forall proper (os ++ map (as_row i) ks)). { apply Forall_app; split; [exact Hpr|]. rewrite Forall_map, Forall_forall. intros [[ci n] o] X. exact (proj2 (row_plain N i o ci (Hv _ X) Hi)). }
  assert (S3 : Forall plain_call (os ++ map (as_row i) ks)). { apply Forall_app; split; [exact Hpc|]. rewrite Forall_map, Forall_forall. intros [[ci n] o] X. exact (proj1 (row_plain N i o ci (Hv _ X) Hi)). }
  destruct (loop_solves m lo hi cs _ Hm Wl Wh Hc Hw Fl Fh Nd Hs Hpl S1 S2 S3) as (pd & Hpd & Hso). destruct (loop_compiles m lo hi cs _ Hm Wl Wh Hc Hw Fl Fh Nd Hs S1) as (pd' & Hpd' & M & L1 & L2 & _).
  assert (pd' = pd) by (unfold compiled_by in *; congruence). subst pd'. pose proof (loop_tidy m lo hi cs _ Hm Wl Wh Hc Hw Fl Fh Nd Hs S1 S2) as Td.
  pose proof (loop_plain m lo hi cs _ pd Hm Wl Wh Hc Hw Fl Fh Nd Hs Hpl S1 S2 S3 Hpd) as G.
  exists pd. split; [now rewrite <- app_assoc|]. intros L So q v HL Hq d Hd Hcare.
  destruct (Hso L So q v HL Hq Hd Hcare) as [(Q & A & B)|R]; [left|right; exact R].
  assert (Ac : Forall (accepted L d) (comps_of pd)).
  { apply Forall_forall. intros j Hj. destruct (G j Hj) as (c' & Pb & Q2 & Q1). destruct (plain_accepted m c' j L d Q2 Q1 Pb) as [X|X]; [|exact X]. now apply Hcare. }
  destruct (program_fits L m _ 0 pd d Td Hpd HL Hd Ac) as [_ F].
  destruct (jit_qp L m pd d Q) as (Q' & A' & _ & _ & _ & _ & O); rewrite ?M; auto. { eapply Forall_impl; [|exact F]. intros j. apply fits_well. }
  exists Q, Q'. rewrite M in O. split; [exact A|]. split; [exact B|]. split; [exact A'|]. split; [|exact O].
  unfold solve. rewrite Hq, Nat.eqb_refl. unfold solve_from_data. fold d. now rewrite A'.
Qed.

Lemma names_nodup cs : NoDup (map nm cs) -> NoDup (map fst (combine (map nm cs) (seq 0 (List.length cs)))).
Proof. intros H. assert (G : forall (l : list comp) b, map fst (combine (map nm l) (seq b (List.length l))) = map nm l). { induction l as [|c l IH]; intros b; cbn; [reflexivity|]. now rewrite IH. } now rewrite G. Qed.
(** A stack of poses for a frame task is accepted at any time. *)
Lemma frame_batch m lo hi cs os N t k c cost lm o t0 : sound_model m -> wf_tensor lo -> wf_tensor hi -> Forall constructed cs -> Forall (fun c => wf_arrays (c_at c)) cs ->
  limit_fits m lo -> limit_fits m hi -> NoDup (map nm cs) -> Forall (fun c => exists d, suits m c d) cs -> Forall steering os ->
  nth_error cs k = Some c -> a_ext (c_at c) = XTask cost lm (TFrame o t0) -> wf_tensor t -> t_shape t = [N; 7] ->
  let ks := [(k, nm c, OpTargetFrame (FArr t))] in
  batch N 0 ks (state (setup m lo hi cs ++ os)) /\ Forall (fun k => vectors N (snd k)) ks.
Proof.
  intros Hm Wl Wh Hc Hw Fl Fh Nd Hs Hst Hk He Wt St ks. subst ks. assert (Ht : Forall tuning_step os) by (eapply Forall_impl; [|exact Hst]; intros x [X _]; exact X).
  split; [|constructor; [exists t, 7; cbn; auto|constructor]].
  destruct (setup_tuned m lo hi cs os Hm Wl Wh Hc Hw Fl Fh Nd Hs Ht) as (p & Ep & P1 & P2 & P3 & _). set (w := state (setup m lo hi cs ++ os)) in *.
  destruct (Forall2_nth _ _ _ _ _ P3 Hk) as (c' & E' & d & D & C & K & _).
  assert (X : exists cost' lm' o' t', a_ext (c_at c') = XTask cost' lm' (TFrame o' t')).
  { assert (Q : class_of (a_ext (c_at c')) = class_of (a_ext (c_at c))).
    { destruct K as (_ & _ & _ & _ & K). rewrite <- class_bare, K, class_bare. apply (class_bound m c d Hm D). pose proof (nth_error_In _ _ Hk) as Hin. rewrite Forall_forall in Hc, Hw.
      destruct (suits_usable m c d) as [U _]; auto; [now apply made_reachable, Hc|now apply TraceFacts.arrays_core, Hw]. }
    rewrite He in Q. destruct (a_ext (c_at c')) as [? ? []|? []|? ? ? []]; cbn in Q; try discriminate. do 4 eexists; reflexivity. }
  destruct X as (cost' & lm' & o' & t' & X). cbn [batch]. split; [|split; [|split; [|split; [|exact I]]]].
  - intros n'. rewrite (lookup_assoc 0 n' k w p Ep).
    + rewrite P2. split.
      * intros Hin. destruct (in_entries m cs 0 n' k Hin) as (c2 & A & _ & B & _). rewrite Nat.sub_0_r in A. congruence.
      * intros ->. exact (entries_in cs 0 k c Hk).
    + intros n i Hin. rewrite P2 in Hin. destruct (in_entries m cs 0 n i Hin) as (c2 & A & _). rewrite Nat.sub_0_r in A. pose proof P3 as Ln. apply Forall2_length in Ln. rewrite <- Ln. apply nth_error_Some. congruence.
    + rewrite P2. now apply names_nodup.
  - exists t, [7]. split; [reflexivity|]. split; [exact Wt|]. split; [exact St|discriminate].
  - intros c2 H2. rewrite E' in H2. injection H2 as <-. unfold stored. now rewrite X.
  - cbn [step]. rewrite E'. cbn [run_cop]. unfold update_target_frame, mbind, read, lift, last_dim_neq, last_dim. cbn [fst snd]. rewrite X, St. reflexivity.
Qed.

(** The lanes of a whole batch: data and solution. *)
Lemma batched_lanes m lo hi cs os N ks : sound_model m -> wf_tensor lo -> wf_tensor hi -> Forall constructed cs -> Forall (fun c => wf_arrays (c_at c)) cs ->
  limit_fits m lo -> limit_fits m hi -> NoDup (map nm cs) -> Forall (fun c => exists d, suits m c d) cs -> Forall (plain m) cs ->
  Forall steering os -> Forall proper os -> Forall plain_call os ->
  let prog := setup m lo hi cs ++ os in batch N 0 ks (state prog) -> Forall (fun k => vectors N (snd k)) ks ->
  exists pd t t', compiled_by (prog ++ map as_step ks) 0 pd /\ fst (set_vmap_dimension 0 (state (prog ++ map as_step ks))) = Ok t /\ set_axes (map place ks) t = Ok t' /\
  forall i, i < N -> exists pd', compiled_by (prog ++ map (as_row i) ks) 0 pd' /\ sample (slice i) t' (data_object (under_jit pd)) = data_object (under_jit pd') /\
  forall L So q v, sound_lib L m -> t_shape q = [m_nq m] -> let d := update L m (t_data q) in wf_data m d ->
    (forall j, In j (comps_of pd') -> needs_care j -> accepted L d j) ->
    (exists Q Q', assemble L m pd' d = Ok Q /\ solve L So m q v pd' = Ok (So Q, sol_primal (So Q)) /\
       assemble L m (under_jit pd') d = Ok Q' /\ solve L So m q v (under_jit pd') = Ok (So Q', sol_primal (So Q')) /\
       forall x, optimal (m_nv m) Q x <-> optimal (m_nv m) Q' x) \/
    (solve L So m q v pd' = Err NonFinite /\ exists j J, In j (comps_of pd') /\ is_barrier j = true /\ jacobian L j d = Ok J /\ frob2 J = 0%R /\
       ((exists s l h x, j_ext j = JBarrier s (JBJoint l h x)) -> j_dim j = 0%Z)).
Proof.
  intros Hm Wl Wh Hc Hw Fl Fh Nd Hs Hpl Hst Hpr Hpc prog Hb Hv. subst prog.
  destruct (batched_loop m lo hi cs os N ks Hm Wl Wh Hc Hw Fl Fh Nd Hs Hst Hb) as (pd & t & t' & A & B & C & D). exists pd, t, t'. do 3 (split; [assumption|]).
  intros i Hi. destruct (D i Hi) as (pd' & D1 & D2). destruct (batched_solves m lo hi cs os N ks Hm Wl Wh Hc Hw Fl Fh Nd Hs Hpl Hst Hpr Hpc Hb Hv i Hi) as (pd2 & E1 & E2).
  assert (pd2 = pd') by (unfold compiled_by in *; congruence). subst pd2. exists pd'. auto.
Qed.

(** The loop of README.md with a stack of poses. *)
Lemma readme_lanes m s i0 lo hi cost g1 g2 lm d0 ft jb os N t : sound_model m -> has_object m OBody s i0 -> 0 < n_scalar m ->
  wf_tensor lo -> wf_tensor hi -> limit_fits m lo -> limit_fits m hi ->
  new_frame_task "ee_task" (tscalar cost) (tscalar g1) s OBody None lm None = Ok ft ->
  new_joint_barrier "jnt_range" (tscalar g2) None d0 None None None = Ok jb ->
  Forall steering os -> Forall proper os -> Forall plain_call os -> wf_tensor t -> t_shape t = [N; 7] ->
  let prog := setup m lo hi [ft; jb] ++ os in
  exists pd tm tm', compiled_by (prog ++ [WCop 0 (OpTargetFrame (FArr t))]) 0 pd /\
    fst (set_vmap_dimension 0 (state (prog ++ [WCop 0 (OpTargetFrame (FArr t))]))) = Ok tm /\ set_axes [["components"; "ee_task"; "target_frame"]%string] tm = Ok tm' /\
  forall i, i < N -> exists pd', compiled_by (prog ++ [WCop 0 (OpTargetFrame (FArr (row i t)))]) 0 pd' /\ sample (slice i) tm' (data_object (under_jit pd)) = data_object (under_jit pd') /\
  forall L So q v, sound_lib L m -> t_shape q = [m_nq m] -> let d := update L m (t_data q) in wf_data m d ->
    exists Q Q', assemble L m pd' d = Ok Q /\ solve L So m q v pd' = Ok (So Q, sol_primal (So Q)) /\
       assemble L m (under_jit pd') d = Ok Q' /\ solve L So m q v (under_jit pd') = Ok (So Q', sol_primal (So Q')) /\
       forall x, optimal (m_nv m) Q x <-> optimal (m_nv m) Q' x.
Proof.
  intros Hm Hi Hn Wl Wh Ll Lh Hf Hj Hst Hpr Hpc Wt St prog. subst prog.
  destruct (frame_suits _ _ _ _ _ _ m i0 Hf Hi) as (F1 & F2 & F3 & F4 & F5). destruct (limits_suits _ _ _ _ _ m Hj) as (J1 & J2 & J3 & J4 & J5).
  assert (A1 : Forall constructed [ft; jb]) by (repeat constructor; assumption).
  assert (A2 : Forall (fun c => wf_arrays (c_at c)) [ft; jb]) by (repeat (constructor; [assumption|]); constructor).
  assert (A3 : Forall (fun c => exists d, suits m c d) [ft; jb]) by (repeat (constructor; [eexists; eassumption|]); constructor).
  assert (A4 : NoDup (map nm [ft; jb])). { cbn [map]. rewrite F5, J5. repeat constructor; cbn; intuition discriminate. }
  assert (A5 : Forall (plain m) [ft; jb]) by (repeat (constructor; [assumption|]); constructor).
  assert (Ef : exists o t0, a_ext (c_at ft) = XTask (tscalar cost) lm (TFrame o t0)). { apply frame_new in Hf. subst ft. do 2 eexists; reflexivity. } destruct Ef as (o & t0 & Ef).
  destruct (frame_batch m lo hi [ft; jb] os N t 0 ft _ _ _ _ Hm Wl Wh A1 A2 Ll Lh A4 A3 Hst eq_refl Ef Wt St) as [B1 B2]. rewrite F5 in B1, B2.
  destruct (batched_lanes m lo hi [ft; jb] os N _ Hm Wl Wh A1 A2 Ll Lh A4 A3 A5 Hst Hpr Hpc B1 B2) as (pd & tm & tm' & C1 & C2 & C3 & C4). exists pd, tm, tm'. do 3 (split; [assumption|]).
  intros i Hil. destruct (C4 i Hil) as (pd' & D1 & D2 & D3). exists pd'. split; [exact D1|]. split; [exact D2|]. intros L So q v HL Hq d Hd.
  assert (S1 : Forall steering (os ++ [WCop 0 (OpTargetFrame (FArr (row i t)))])). { apply Forall_app; split; [exact Hst|]. constructor; [|constructor]. split; [apply tune_call; exact I|exact I]. }
  assert (S2 : Forall proper (os ++ [WCop 0 (OpTargetFrame (FArr (row i t)))])). { apply Forall_app; split; [exact Hpr|]. constructor; [exact I|constructor]. }
  assert (S3 : Forall plain_call (os ++ [WCop 0 (OpTargetFrame (FArr (row i t)))])). { apply Forall_app; split; [exact Hpc|]. constructor; [|constructor]. destruct (row_is_vector i N t 7 Wt St Hil) as (v' & -> & _). now exists v'. }
  destruct (readme_plus m s i0 lo hi cost g1 g2 lm d0 ft jb _ Hm Hi Hn Wl Wh Ll Lh Hf Hj S1 S2 S3) as (pd2 & E1 & Nc & E2). rewrite app_assoc in E1.
  change (compiled_by ((setup m lo hi [ft; jb] ++ os) ++ [WCop 0 (OpTargetFrame (FArr (row i t)))]) 0 pd') in D1.
  assert (pd2 = pd') by (unfold compiled_by in *; congruence). subst pd2. destruct (E2 L So q v HL Hq Hd) as (Q & G1 & G2).
  destruct (D3 L So q v HL Hq Hd) as [R|(R & _)]; [|exact R|].
  - intros j Hin Hc. now elim (Nc j Hin).
  - rewrite G2 in R. discriminate.
Qed.
