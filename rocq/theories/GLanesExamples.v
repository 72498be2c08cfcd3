(** Proofs of C122, continued: one problem for all lanes with the local solver, and the examples. *)
From Verif Require Import Base Lin LinFacts Mjx Typing Component Problem SpecComponent SpecJoint SpecHistory SpecTyping SpecCollision SpecTree SpecShape SpecContact SpecSelf SpecValue SpecProblem SpecQP SpecFit SpecTrace SpecSetup.
From Verif Require Import BindThms2 ComponentFacts SetupFacts SetupFacts2 SetupFacts5 Conf JaxComponents LocalIK GlobalIK SpecMotion SpecLoop SpecSolve SpecGlobal SpecClosed SpecGLoop GLoopThms SpecAnyLoop ClosedThms2 AnyLoopThms AnyLoopThms2.
From Verif Require Import JaxTree SpecJaxTree SpecBatch SpecVmap SpecLanes LanesLoop LanesRun LanesAny SpecStacks StackFacts StackCases StackThms StackExamples SpecGLanes GLanesFacts GLanesThms.
Open Scope nat_scope.
#[local] Arguments update_model : simpl never.
#[local] Arguments jax_component : simpl never.
#[local] Arguments build_component : simpl never.
#[local] Arguments SpecStacks.ready : simpl never.
#[local] Arguments easy : simpl never.

Lemma shared_outcome m lo hi cs L So dt N pre turns q s : sound_model m -> wf_tensor lo -> wf_tensor hi -> limit_fits m lo -> limit_fits m hi -> NoDup (map nm cs) -> Forall (SpecStacks.ready m) cs ->
  sound_lib L m -> (forall q, List.length q = m_nq m -> wf_data m (update L m q) /\ Forall (evaluates L m q) cs) -> one_entry_each So -> Forall loop_call pre ->
  Forall (Forall (fun c => loop_call (as_step c))) turns -> 0 < N -> (forall i, i < N -> List.length (q i) = m_nq m) -> let prog := setup m lo hi cs ++ pre in
  (exists tr qn, vmapped_loop L So m dt N PNone prog turns q s tr qn /\ forall i, i < N -> jitted_loop L So m dt prog (map (map as_step) turns) (q i) (s i) (lane i tr) (qn i)) \/
  (exists i ts ks ts' tr q' pd, i < N /\ turns = ts ++ ks :: ts' /\ jitted_loop L So m dt prog (map (map as_step) ts) (q i) (s i) tr q' /\
     compiled_by (prog ++ calls_of (map (map as_step) ts) ++ map as_step ks) 0 pd /\ (forall s', solve L So m (tvec q') s' (under_jit pd) = Err NonFinite) /\ idle_barrier L (update L m q') pd).
Proof.
  intros Hm Wl Wh Fl Fh Nd Hr HL Hd Hone Hpre Hts HN Hq prog. destruct (ready_parts m cs Hr) as (Hc & Hw & Hs & Hpl).
  assert (Ht : Forall (Forall loop_call) (map (map as_step) turns)) by (clear -Hts; induction Hts as [|ks turns H _ IH]; cbn; constructor; [|exact IH]; apply Forall_map; exact H).
  destruct (lanes_dec N (fun i => exists tr qn, jitted_loop L So m dt prog (map (map as_step) turns) (q i) (s i) tr qn) (fun i => exists ts ks ts' tr q' pd, turns = ts ++ ks :: ts' /\ jitted_loop L So m dt prog (map (map as_step) ts) (q i) (s i) tr q' /\
     compiled_by (prog ++ calls_of (map (map as_step) ts) ++ map as_step ks) 0 pd /\ (forall s', solve L So m (tvec q') s' (under_jit pd) = Err NonFinite) /\ idle_barrier L (update L m q') pd)) as [A|(i & Hi & X)].
  - intros i Hi. destruct (jit_any_loop m lo hi cs Hm Wl Wh Hc Hw Fl Fh Nd Hs Hpl L So dt (map (map as_step) turns) HL Hd Hone Ht pre (q i) (s i) Hpre (Hq i Hi)) as [A|(ts & os' & ts' & tr & q' & pd & E & J & _ & R1 & R2 & R3)]; [now left|right].
    apply map_eq_app in E as (k1 & k2 & -> & E1 & E2). apply map_eq_cons in E2 as (ks & k3 & -> & E3 & E4). subst ts os'. exists k1, ks, k3, tr, q', pd. auto.
  - left. destruct (shared_of L So m dt N turns prog q s (fun _ => HN) A) as (tr & qn & R). exists tr, qn. split; [exact R|]. now apply shared_to.
  - right. destruct X as (ts & ks & ts' & tr & q' & pd & X). exists i, ts, ks, ts', tr, q', pd. tauto.
Qed.

(** The calls of the examples: one pose for all lanes. *)
Lemma pose_call p : List.length p = 7 -> Forall (fun c => loop_call (as_step c)) (ee_turn (tvec p)).
Proof.
  intros Hp. constructor; [|constructor]. split; [split; [first [now constructor|exact I|exact eq_refl]|exact I]|]. split; cbn.
  - unfold wf_tensor. cbn. lia.
  - first [exact I | exists p; auto | split; auto].
Qed.

Section Example_.
Variables (m : mjmodel) (s0 : string) (i0 : Z) (lo hi kk g1 g2 g3 lm d0 d1 px : R) (ft pb jb : comp).
Hypothesis (Hm : sound_model m) (H0 : has_object m OBody s0 i0) (Hn : 0 < n_scalar m) (Hft : new_frame_task "ee_task" (tscalar kk) (tscalar g1) s0 OBody None lm None = Ok ft)
  (Hpb : new_position_barrier "ee_barrier" (tscalar g2) s0 OBody None (Some (tscalar px)) "max" None d0 (Some (mvec [1; 0; 0]%Z)) = Ok pb)
  (Hjb : new_joint_barrier "jnt_range" (tscalar g3) None d1 None None None = Ok jb).
Lemma trio_names : NoDup (map nm [ft; pb; jb]).
Proof.
  destruct (frame_ready _ _ _ _ _ _ _ _ m i0 Hft I H0) as (B1 & B2 & B3 & (ob & tb & B4)). destruct (limits_ready _ _ _ _ m Hjb Hn) as (J1 & J2 & _ & _ & _ & _ & J3). destruct (wall_ready _ _ _ _ _ _ m i0 Hpb H0) as (W1 & W2 & _ & _ & W3).
  cbn [map]. rewrite B2, W2, J2. repeat constructor; cbn; intuition discriminate.
Qed.
Lemma trio_ready : Forall (SpecStacks.ready m) [ft; pb; jb] /\ forall L q, Forall (evaluates L m q) [ft; pb; jb].
Proof.
  destruct (frame_ready _ _ _ _ _ _ _ _ m i0 Hft I H0) as (B1 & B2 & B3 & (ob & tb & B4)). destruct (limits_ready _ _ _ _ m Hjb Hn) as (J1 & J2 & _ & _ & _ & _ & J3). destruct (wall_ready _ _ _ _ _ _ m i0 Hpb H0) as (W1 & W2 & _ & _ & W3).
  split; [auto|]. intros L q. constructor; [apply B3|]. constructor; [apply W3|]. constructor; [apply J3|constructor].
Qed.
Lemma trio_soft : Forall (fun c => ~ constraint_component c) [ft; pb; jb].
Proof.
  destruct (frame_ready _ _ _ _ _ _ _ _ m i0 Hft I H0) as (B1 & B2 & B3 & (ob & tb & B4)). destruct (limits_ready _ _ _ _ m Hjb Hn) as (J1 & J2 & _ & J4 & _). destruct (wall_ready _ _ _ _ _ _ m i0 Hpb H0) as (W1 & W2 & W3 & _).
  constructor; [|constructor; [|constructor; [|constructor]]].
  - unfold constraint_component. rewrite B4. tauto.
  - intros X. clear -Hpb X. vm_compute in Hpb. apply (f_equal (fun r => match r with Ok c => c | Err _ => pb end)) in Hpb. cbv beta iota in Hpb. rewrite <- Hpb in X. exact X.
  - intros X. clear -Hjb X. vm_compute in Hjb. apply (f_equal (fun r => match r with Ok c => c | Err _ => jb end)) in Hjb. cbv beta iota in Hjb. rewrite <- Hjb in X. exact X.
Qed.
Lemma trio_turns N Ts : Forall (stack_of N 7) Ts -> Forall (fun ks => stack_turn m N [ft; pb; jb] ks /\ forall p, In p (map place ks) <-> In p ee_place) (map ee_turn Ts).
Proof.
  destruct (frame_ready _ _ _ _ _ _ _ _ m i0 Hft I H0) as (B1 & B2 & B3 & (ob & tb & B4)).
  intros HTs. apply Forall_forall. intros ks Hin. apply in_map_iff in Hin as (p & <- & Hp). rewrite Forall_forall in HTs. destruct (HTs p Hp) as [V1 V2]. split; [|intros x; cbn; tauto].
  constructor; [exists ft; split; [reflexivity|split; [symmetry; exact B2|now apply (frame_stack m N ft _ _ _ _ _ B4)]]|constructor].
Qed.
Variables (L : lib) (grad : gradient) (O : optimizer) (So : qpsolver) (dt : R) (k N : nat) (pre : list wop) (q : nat -> vec) (st : nat -> o_state O) (s : nat -> vec).
Hypothesis (HL : sound_lib L m) (Hd : forall q, List.length q = m_nq m -> wf_data m (update L m q)) (Hpre : Forall loop_call pre) (Hq : forall i, i < N -> List.length (q i) = m_nq m).
Let prog := setup m (tscalar lo) (tscalar hi) [ft; pb; jb] ++ pre.
Lemma trio_data : forall q, List.length q = m_nq m -> wf_data m (update L m q) /\ Forall (evaluates L m q) [ft; pb; jb].
Proof. intros q0 H. split; [now apply Hd|]. apply (proj2 trio_ready). Qed.
Lemma global_output Ts : traces grad -> step_keeps_length O -> Forall (stack_of N 7) Ts -> Ts <> [] ->
  exists t tm tr qn, fst (set_vmap_dimension 0 (state prog)) = Ok t /\ set_axes ee_place t = Ok tm /\
  vmapped_gloop L grad O m dt (S k) N tm (prog ++ [WCompile 0]) (map ee_turn Ts) q st tr qn /\
  forall i, i < N -> jitted_gloop L grad O m dt (S k) (prog ++ [WCompile 0]) (rows_of i (map ee_turn Ts)) (q i) (st i) (lane i tr) (qn i).
Proof.
  intros Hg Hk HTs Hne. apply gstacks_run; auto; try exact eq_refl; try (now left); try exact trio_data; try exact trio_names; try exact (proj1 trio_ready); try exact trio_soft; try (now apply trio_turns).
  destruct Ts; [now elim Hne|discriminate].
Qed.
Lemma global_input ps : traces grad -> step_keeps_length O -> Forall (fun p => List.length p = 7) ps -> 0 < N ->
  exists tr qn, vmapped_gloop L grad O m dt (S k) N PNone prog (map (fun p => ee_turn (tvec p)) ps) q st tr qn /\
  forall i, i < N -> jitted_gloop L grad O m dt (S k) prog (map (map as_step) (map (fun p => ee_turn (tvec p)) ps)) (q i) (st i) (lane i tr) (qn i).
Proof.
  intros Hg Hk Hps HN. apply gshared_run; auto; try exact eq_refl; try (now left); try exact trio_data; try exact trio_names; try exact (proj1 trio_ready); try exact trio_soft.
  apply Forall_map. eapply Forall_impl; [|exact Hps]. intros p. apply pose_call.
Qed.
Lemma local_input ps : one_entry_each So -> Forall (fun p => List.length p = 7) ps -> 0 < N -> let turns := map (fun p => ee_turn (tvec p)) ps in
  (exists tr qn, vmapped_loop L So m dt N PNone prog turns q s tr qn /\ forall i, i < N -> jitted_loop L So m dt prog (map (map as_step) turns) (q i) (s i) (lane i tr) (qn i)) \/
  (exists i ts ks ts' tr q' pd, i < N /\ turns = ts ++ ks :: ts' /\ jitted_loop L So m dt prog (map (map as_step) ts) (q i) (s i) tr q' /\
     compiled_by (prog ++ calls_of (map (map as_step) ts) ++ map as_step ks) 0 pd /\ (forall s', solve L So m (tvec q') s' (under_jit pd) = Err NonFinite) /\ idle_barrier L (update L m q') pd).
Proof.
  intros Hone Hps HN turns. apply shared_outcome; auto; try exact eq_refl; try (now left); try exact trio_data; try exact trio_names; try exact (proj1 trio_ready).
  apply Forall_map. eapply Forall_impl; [|exact Hps]. intros p. apply pose_call.
Qed.
End Example_.
