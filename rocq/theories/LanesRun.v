(** C120: batched loops never fail and keep joint limits. *)
From Verif Require Import Base Lin LinFacts Mjx Typing Component Problem SpecComponent SpecJoint SpecHistory SpecTyping SpecCollision SpecTree SpecShape SpecContact SpecValue SpecProblem SpecQP SpecFit SpecTrace SpecSetup.
From Verif Require Import ProblemFacts ProbThms SetupFacts SetupFacts2 SetupFacts3 SetupFacts4 SetupFacts5 Conf JaxComponents LocalIK SpecMotion SpecLoop SpecSolve SpecClosed MotionFacts MotionFacts2 QPFacts QPThms QPThms2 JaxTree SpecJaxTree SpecBatch SpecVmap BatchFacts BatchThms VmapFacts ClosedThms ClosedThms2 SpecLanes LanesLoop.
Open Scope nat_scope.
#[local] Arguments update_model : simpl never.
#[local] Arguments step : simpl never.

Section Run.
Context (m : mjmodel) (lo hi : tensor) (cs : list comp).
Context (Hm : sound_model m) (Wl : wf_tensor lo) (Wh : wf_tensor hi) (Hc : Forall constructed cs) (Hw : Forall (fun c => wf_arrays (c_at c)) cs).
Context (Fl : limit_fits m lo) (Fh : limit_fits m hi) (Nd : NoDup (map nm cs)) (Hs : Forall (fun c => exists d, suits m c d) cs) (Hpl : Forall (plain m) cs) (Htr : Forall (tracks m) cs).
Let prog := setup m lo hi cs.

Lemma jit_turn os L q : Forall loop_call os -> sound_lib L m -> List.length q = m_nq m -> wf_data m (update L m q) ->
  exists pd Q Q', compiled_by (prog ++ os) 0 pd /\ assemble L m pd (update L m q) = Ok Q /\ assemble L m (under_jit pd) (update L m q) = Ok Q' /\ List.length (qp_c Q') = m_nv m /\
  (forall x, optimal (m_nv m) Q x <-> optimal (m_nv m) Q' x) /\
  forall So s, solve L So m (tvec q) s pd = Ok (So Q, sol_primal (So Q)) /\ solve L So m (tvec q) s (under_jit pd) = Ok (So Q', sol_primal (So Q')).
Proof.
  intros Ho HL Hq Hd. destruct (calls_split os Ho) as (O1 & O2 & O3). assert (Sq : t_shape (tvec q) = [m_nq m]) by (cbn; now rewrite Hq).
  destruct (batched_lanes m lo hi cs os 1 [] Hm Wl Wh Hc Hw Fl Fh Nd Hs Hpl O1 O2 O3 I (Forall_nil _)) as (x1 & x2 & x3 & _ & _ & _ & X).
  destruct (X 0 (Nat.lt_0_succ 0)) as (pd & C & _ & S). cbn [map] in C. rewrite app_nil_r in C. clear X.
  destruct (turn_problem m lo hi cs Hm Wl Wh Hc Hw Fl Fh Nd Hs Hpl Htr os pd Ho C) as (T1 & T2 & T3 & T4 & _).
  assert (A : forall j, In j (comps_of pd) -> needs_care j -> accepted L (update L m q) j).
  { intros j Hj _. pose proof (T3 L (update L m q)) as T. rewrite Forall_forall in T. now apply T. }
  assert (R : forall So s, exists Q Q', assemble L m pd (update L m q) = Ok Q /\ solve L So m (tvec q) s pd = Ok (So Q, sol_primal (So Q)) /\
       assemble L m (under_jit pd) (update L m q) = Ok Q' /\ solve L So m (tvec q) s (under_jit pd) = Ok (So Q', sol_primal (So Q')) /\
       forall x, optimal (m_nv m) Q x <-> optimal (m_nv m) Q' x).
  { intros So s. destruct (S L So (tvec q) s HL Sq Hd A) as [Y|(_ & j & J & H1 & H2 & H3 & H4 & _)]; [exact Y|]. elim (T4 L _ j J H1 H2 H3 H4). }
  destruct (R (fun _ => mkSol [] [] []) []) as (Q & Q' & R1 & _ & R3 & _ & R5). exists pd, Q, Q'. split; [exact C|]. split; [exact R1|]. split; [exact R3|].
  split. { rewrite <- T2. apply (hessian_shape L m (under_jit pd) (update L m q) Q'); [cbn; congruence|exact R3]. }
  split; [exact R5|]. intros So s. destruct (R So s) as (Q2 & Q2' & X1 & X2 & X3 & X4 & _). rewrite R1 in X1. injection X1 as <-. rewrite R3 in X3. injection X3 as <-. now split.
Qed.

Lemma jit_runs L So dt turns : sound_lib L m -> (forall q, List.length q = m_nq m -> wf_data m (update L m q)) -> one_entry_each So -> Forall (Forall loop_call) turns ->
  forall os q s, Forall loop_call os -> List.length q = m_nq m ->
  exists tr qn, jitted_loop L So m dt (prog ++ os) turns q s tr qn.
Proof.
  intros HL Hd Hone. pose proof Hm as ((Wj & _) & _). induction turns as [|o turns IH]; intros Ht os q s Ho Hq; [exists [], q; constructor|].
  assert (Ho' : Forall loop_call (os ++ o)) by (apply Forall_app; split; [exact Ho|exact (Forall_inv Ht)]).
  destruct (jit_turn (os ++ o) L q Ho' HL Hq (Hd q Hq)) as (pd & Q & Q' & Hpd & _ & _ & Lc & _ & Hso).
  assert (Lv : List.length (sol_primal (So Q')) = m_nv m) by (rewrite Hone; exact Lc).
  destruct (integrate_spec m Wj q _ dt Hq Lv) as (q1 & Hi & L1 & _).
  destruct (IH (Forall_inv_tail Ht) ((os ++ o) ++ [WCompile 0]) q1 (sol_primal (So Q'))) as (tr & qn & C); [|exact L1|].
  { apply Forall_app. split; [exact Ho'|]. repeat constructor. }
  exists ((q, under_jit pd, sol_primal (So Q')) :: tr), qn. econstructor; [|apply Hso|exact Hi|].
  - rewrite <- app_assoc. exact Hpd.
  - rewrite <- !app_assoc. rewrite <- !app_assoc in C. exact C.
Qed.
Lemma jit_length L So dt turns : sound_lib L m -> (forall q, List.length q = m_nq m -> wf_data m (update L m q)) -> one_entry_each So -> Forall (Forall loop_call) turns ->
  forall os q s tr qn, Forall loop_call os -> List.length q = m_nq m -> jitted_loop L So m dt (prog ++ os) turns q s tr qn -> List.length qn = m_nq m.
Proof.
  intros HL Hd Hone. pose proof Hm as ((Wj & _) & _). induction turns as [|o turns IH]; intros Ht os q s tr qn Ho Hq C; inversion C as [|? ? ? ? ? pd sol v q1 tr' ? Hpd Hso Hi C']; subst; [exact Hq|].
  assert (Ho' : Forall loop_call (os ++ o)) by (apply Forall_app; split; [exact Ho|exact (Forall_inv Ht)]).
  destruct (jit_turn (os ++ o) L q Ho' HL Hq (Hd q Hq)) as (pd2 & Q & Q' & Hpd2 & _ & _ & Lc & _ & Hso2). rewrite app_assoc in Hpd2.
  assert (pd2 = pd) by (unfold compiled_by in *; congruence). subst pd2. destruct (Hso2 So s) as [_ Y]. rewrite Hso in Y. injection Y as -> ->.
  assert (Lv : List.length (sol_primal (So Q')) = m_nv m) by (rewrite Hone; exact Lc).
  destruct (integrate_spec m Wj q _ dt Hq Lv) as (q2 & Hi2 & L1 & _). rewrite Hi in Hi2. injection Hi2 as <-.
  apply (IH (Forall_inv_tail Ht) ((os ++ o) ++ [WCompile 0]) q1 (sol_primal (So Q')) tr' qn); [|exact L1|].
  - apply Forall_app. split; [exact Ho'|]. repeat constructor.
  - rewrite <- !app_assoc in C' |- *. exact C'.
Qed.

(** A solver that answers [x] always. *)
Lemma jit_safe L So dt : below_zero lo -> above_zero hi -> Forall (mild dt) cs -> (0 <= dt)%R -> sound_lib L m -> keeps_scalars L m -> (forall q, List.length q = m_nq m -> wf_data m (update L m q)) ->
  forall turns os q s tr qn, Forall (Forall loop_call) turns -> Forall (Forall keeps_limits) turns -> Forall loop_call os -> Forall keeps_limits os ->
  List.length q = m_nq m -> Forall (in_limits m q) cs -> jitted_loop L So m dt (prog ++ os) turns q s tr qn -> Forall (exact_turn L So m) tr ->
  Forall (in_limits m qn) cs /\ Forall (fun t => Forall (in_limits m (fst (fst t))) cs) tr.
Proof.
  intros Hlo Hhi Hmi Hdt HL Hks Hd. induction turns as [|o turns IH]; intros os q s tr qn Ht Hkt Ho Hk Hq Hin C Hex; inversion C as [|? ? ? ? ? pd sol v q1 tr' ? Hpd Hso Hi C']; subst; [now split|].
  assert (Ho' : Forall loop_call (os ++ o)) by (apply Forall_app; split; [exact Ho|exact (Forall_inv Ht)]).
  assert (Hk' : Forall keeps_limits (os ++ o)) by (apply Forall_app; split; [exact Hk|exact (Forall_inv Hkt)]).
  pose proof (Forall_inv Hex) as Hex0. destruct (jit_turn (os ++ o) L q Ho' HL Hq (Hd q Hq)) as (pd2 & Q & Q' & Hpd2 & HQ & HQ' & Lc & Ho2 & Hso2).
  rewrite <- app_assoc in Hpd. assert (pd2 = pd) by (unfold prog, compiled_by in *; congruence). subst pd2.
  set (So1 := fun _ : qp => So Q'). destruct (Hso2 So s) as [_ Y]. rewrite Hso in Y. injection Y as -> ->. destruct (Hso2 So1 s) as [Z _].
  assert (E1 : exact_turn L So1 m (q, pd, sol_primal (So Q'))).
  { intros Q2 H2. rewrite HQ in H2. injection H2 as <-. unfold exact_turn in Hex0. specialize (Hex0 Q' HQ'). unfold minimises in *. intros n Hn0 (x & Hx).
    assert (Lc2 : List.length (qp_c Q) = m_nv m).
    { destruct (turn_problem m lo hi cs Hm Wl Wh Hc Hw Fl Fh Nd Hs Hpl Htr (os ++ o) pd Ho' Hpd) as (_ & T2 & _). rewrite <- T2. apply (hessian_shape L m pd (update L m q) Q); [congruence|exact HQ]. }
    rewrite Lc2 in Hn0. subst n. apply Ho2. apply (Hex0 (m_nv m) (eq_sym Lc)). exists x. now apply Ho2. }
  destruct (turn_safe m lo hi cs Hm Wl Wh Hc Hw Fl Fh Nd Hs Hpl Htr (os ++ o) pd L So1 dt q s (So Q') (sol_primal (So Q')) q1 Ho' Hk' Hlo Hhi Hmi Hdt HL Hks Hq (Hd q Hq) Hin Hpd E1 Z Hi) as (_ & S2 & S3 & _).
  destruct (IH ((os ++ o) ++ [WCompile 0]) q1 (sol_primal (So Q')) tr' qn (Forall_inv_tail Ht) (Forall_inv_tail Hkt)) as [R1 R2]; auto.
  - apply Forall_app. split; [exact Ho'|repeat constructor].
  - apply Forall_app. split; [exact Hk'|repeat constructor].
  - rewrite <- !app_assoc in C' |- *. exact C'.
  - exact (Forall_inv_tail Hex).
Qed.

(** Rows of stacks of vectors are plain calls. *)
Lemma rows_call N i ks w : i < N -> batch N 0 ks w -> Forall (fun k => vectors N (snd k)) ks -> Forall loop_call (map (as_row i) ks).
Proof.
  intros Hi Hb Hv. pose proof (batch_batched _ _ _ _ Hb) as B. rewrite Forall_map. rewrite Forall_forall in *. intros [[ci n] o] Hk. specialize (B _ Hk). specialize (Hv _ Hk). cbn [snd] in *.
  unfold as_row. cbn [fst snd]. destruct (row_plain N i o ci Hv Hi) as [P1 P2]. split; [exact (row_batched_steers N i o ci B)|]. now split.
Qed.
Lemma rows_calls N places i turns : forall pr, i < N -> stacked N places pr turns -> Forall (Forall (fun k => vectors N (snd k))) turns -> Forall (Forall loop_call) (rows_of i turns).
Proof.
  induction turns as [|ks turns IH]; intros pr Hi S V; cbn; [constructor|]. destruct S as (Hb & _ & _ & S). constructor; [eapply rows_call; eauto; exact (Forall_inv V)|].
  eapply IH; eauto. exact (Forall_inv_tail V).
Qed.
Lemma rows_keep i (turns : list (list call)) : Forall (Forall (fun k => keeps_limits (as_step k))) turns -> Forall (Forall keeps_limits) (rows_of i turns).
Proof.
  intros H. unfold rows_of. rewrite Forall_map. eapply Forall_impl; [|exact H]. intros ks K. rewrite Forall_map. eapply Forall_impl; [|exact K]. intros [[ci n] o].
  destruct o as [| | |t0|t0|[t0|t0]|t0|t0|t0|t0|t0| | | |]; cbn; auto.
Qed.
Lemma prog_legal : Forall legal prog.
Proof. now apply setup_legal. Qed.

Lemma batches_run L So dt N places t tm turns q s : sound_lib L m -> (forall q, List.length q = m_nq m -> wf_data m (update L m q)) -> one_entry_each So ->
  fst (set_vmap_dimension 0 (state prog)) = Ok t -> set_axes places t = Ok tm -> stacked N places (prog ++ [WCompile 0]) turns ->
  Forall (Forall (fun k => vectors N (snd k))) turns -> (forall i, i < N -> List.length (q i) = m_nq m) ->
  exists tr qn, vmapped_loop L So m dt N tm (prog ++ [WCompile 0]) turns q s tr qn /\ forall i, i < N -> List.length (qn i) = m_nq m.
Proof.
  intros HL Hd Hone Ht Ha S V Hq. destruct (lanes_are_loops L So m dt N prog t places tm turns q s prog_legal Ht Ha S) as [A B].
  assert (C1 : Forall loop_call [WCompile 0]) by repeat constructor.
  destruct B as (tr & qn & J). { intros i Hi. apply jit_runs; auto. eapply rows_calls; eauto. }
  exists tr, qn. split; [exact J|]. intros i Hi. specialize (A tr qn J i Hi). apply (jit_length L So dt (rows_of i turns) HL Hd Hone ltac:(eapply rows_calls; eauto) [WCompile 0] (q i) (s i) (lane i tr) (qn i) C1 (Hq i Hi) A).
Qed.
Lemma batches_safe L So dt N places t tm turns q s tr qn : below_zero lo -> above_zero hi -> Forall (mild dt) cs -> (0 <= dt)%R -> sound_lib L m -> keeps_scalars L m ->
  (forall q, List.length q = m_nq m -> wf_data m (update L m q)) ->
  fst (set_vmap_dimension 0 (state prog)) = Ok t -> set_axes places t = Ok tm -> stacked N places (prog ++ [WCompile 0]) turns ->
  Forall (Forall (fun k => vectors N (snd k))) turns -> Forall (Forall (fun k => keeps_limits (as_step k))) turns ->
  vmapped_loop L So m dt N tm (prog ++ [WCompile 0]) turns q s tr qn ->
  forall i, i < N -> List.length (q i) = m_nq m -> Forall (in_limits m (q i)) cs -> Forall (exact_turn L So m) (lane i tr) ->
  Forall (in_limits m (qn i)) cs /\ Forall (fun t => Forall (in_limits m (fst (fst t) i)) cs) tr.
Proof.
  intros Hlo Hhi Hmi Hdt HL Hks Hd Ht Ha S V K J i Hi Hq Hin Hex. destruct (lanes_are_loops L So m dt N prog t places tm turns q s prog_legal Ht Ha S) as [A _].
  specialize (A tr qn J i Hi). assert (C1 : Forall loop_call [WCompile 0]) by repeat constructor. assert (C2 : Forall keeps_limits [WCompile 0]) by repeat constructor.
  destruct (jit_safe L So dt Hlo Hhi Hmi Hdt HL Hks Hd (rows_of i turns) [WCompile 0] (q i) (s i) (lane i tr) (qn i)) as [R1 R2]; auto.
  - eapply rows_calls; eauto.
  - now apply rows_keep.
  - split; [exact R1|]. unfold lane in R2. now rewrite Forall_map in R2.
Qed.
End Run.
