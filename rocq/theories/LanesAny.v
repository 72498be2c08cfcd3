(** C121: batched loops with every kind of component. *)
From Verif Require Import Base Lin LinFacts Mjx Typing Component Problem SpecComponent SpecJoint SpecHistory SpecTyping SpecCollision SpecTree SpecShape SpecContact SpecValue SpecProblem SpecQP SpecFit SpecTrace SpecSetup.
From Verif Require Import ProblemFacts ProbThms FitFacts FitFacts3 SetupFacts SetupFacts2 SetupFacts3 SetupFacts4 SetupFacts5 Conf JaxComponents LocalIK SpecMotion SpecLoop SpecSolve SpecClosed MotionFacts MotionFacts2 QPFacts QPThms QPThms2 SolveThms JaxTree SpecJaxTree JitFacts SpecBatch SpecVmap BatchFacts BatchThms VmapFacts ClosedThms ClosedThms2 GlobalIK SpecGlobal SpecGLoop GLoopThms SpecAnyLoop AnyLoopThms AnyLoopThms2 SpecLanes LanesLoop LanesRun QPThms5.
From Coq Require Import Permutation.
Open Scope nat_scope.
#[local] Arguments update_model : simpl never.
#[local] Arguments step : simpl never.

Section Any.
Context (m : mjmodel) (lo hi : tensor) (cs : list comp).
Context (Hm : sound_model m) (Wl : wf_tensor lo) (Wh : wf_tensor hi) (Hc : Forall constructed cs) (Hw : Forall (fun c => wf_arrays (c_at c)) cs).
Context (Fl : limit_fits m lo) (Fh : limit_fits m hi) (Nd : NoDup (map nm cs)) (Hs : Forall (fun c => exists d, suits m c d) cs) (Hpl : Forall (plain m) cs).
Let prog := setup m lo hi cs.

Lemma jit_any_turn os L q : Forall loop_call os -> sound_lib L m -> List.length q = m_nq m -> wf_data m (update L m q) -> Forall (evaluates L m q) cs ->
  exists pd, compiled_by (prog ++ os) 0 pd /\
  ((exists Q Q', assemble L m pd (update L m q) = Ok Q /\ assemble L m (under_jit pd) (update L m q) = Ok Q' /\ List.length (qp_c Q) = m_nv m /\ List.length (qp_c Q') = m_nv m /\
      (forall x, optimal (m_nv m) Q x <-> optimal (m_nv m) Q' x) /\
      forall So s, solve L So m (tvec q) s pd = Ok (So Q, sol_primal (So Q)) /\ solve L So m (tvec q) s (under_jit pd) = Ok (So Q', sol_primal (So Q'))) \/
   ((forall So s, solve L So m (tvec q) s (under_jit pd) = Err NonFinite) /\ idle_barrier L (update L m q) pd)).
Proof.
  intros Ho HL Hq Hd Hev. destruct (any_problem m lo hi cs Hm Wl Wh Hc Hw Fl Fh Nd Hs Hpl os Ho) as (pd & Hpd & T1 & Em & _). exists pd. split; [exact Hpd|].
  pose proof (all_accepted m lo hi cs Hm Wl Wh Hc Hw Fl Fh Nd Hs Hpl os pd L q Ho Hpd Hev Hd) as Ha. set (d := update L m q) in *.
  assert (Sq : t_shape (tvec q) = [m_nq m]) by (cbn; now rewrite Hq).
  assert (Es : forall So s pd', solve L So m (tvec q) s pd' = solve_from_data L So m s pd' d) by (intros; unfold solve; rewrite Sq, Nat.eqb_refl; reflexivity).
  destruct (program_components m (prog ++ os) 0 pd T1 Hpd) as (_ & L1 & L2 & _).
  destruct (program_fits L m (prog ++ os) 0 pd d T1 Hpd HL Hd Ha) as [_ F].
  assert (W : Forall (well_shaped L (m_nv m) d) (comps_of pd)) by (eapply Forall_impl; [|exact F]; intros j; apply fits_well).
  assert (F' : Forall (fits L (m_nv m) d) (comps_of (under_jit pd))) by (eapply Permutation_Forall; [apply jit_comps|exact F]).
  assert (W' : Forall (well_shaped L (m_nv m) d) (comps_of (under_jit pd))) by (eapply Permutation_Forall; [apply jit_comps|exact W]).
  destruct (program_solves L (fun _ => mkSol [] [] []) m (prog ++ os) 0 pd (tvec q) [] T1 Hpd HL Sq Hd Ha) as [(Q & A & _)|(E & X)]; [left|right].
  - cbn [t_data tvec] in A. fold d in A. destruct (jit_qp L m pd d Q) as (Q' & A' & _ & _ & _ & _ & O); rewrite ?Em; auto. rewrite Em in O. exists Q, Q'.
    split; [exact A|]. split; [exact A'|].
    split; [rewrite <- Em; apply (hessian_shape L m pd d Q); [congruence|exact A]|].
    split; [rewrite <- Em; apply (hessian_shape L m (under_jit pd) d Q'); [cbn; congruence|exact A']|].
    split; [exact O|]. intros So s. rewrite !Es. unfold solve_from_data. rewrite A, A'. auto.
  - split; [|exact X]. intros So s. rewrite Es in E |- *. unfold solve_from_data in *. destruct (assemble L m pd d) as [|e0] eqn:EA; [discriminate|].
    destruct (assemble L m (under_jit pd) d) as [Q'|e] eqn:EJ.
    + exfalso. destruct (perm_optimal L m (under_jit pd) pd d Q') as (Q & A & _); cbn [under_jit jd_model jd_vmin jd_vmax]; rewrite ?Em; auto; [|congruence]. apply Permutation_sym, jit_comps.
    + cbn [bind]. f_equal. apply (assemble_only_nonfinite L m (under_jit pd) d e); cbn [under_jit jd_model]; rewrite ?Em; auto.
Qed.

Lemma jit_any_loop L So dt turns : sound_lib L m -> (forall q, List.length q = m_nq m -> wf_data m (update L m q) /\ Forall (evaluates L m q) cs) -> one_entry_each So -> Forall (Forall loop_call) turns ->
  forall os q s, Forall loop_call os -> List.length q = m_nq m ->
  (exists tr qn, jitted_loop L So m dt (prog ++ os) turns q s tr qn) \/
  (exists ts os' ts' tr q' pd, turns = ts ++ os' :: ts' /\ jitted_loop L So m dt (prog ++ os) ts q s tr q' /\ List.length q' = m_nq m /\
     compiled_by ((prog ++ os) ++ calls_of ts ++ os') 0 pd /\ (forall s', solve L So m (tvec q') s' (under_jit pd) = Err NonFinite) /\ idle_barrier L (update L m q') pd).
Proof.
  intros HL Hd Hone. pose proof Hm as ((Wj & _) & _). induction turns as [|o turns IH]; intros Ht os q s Ho Hq; [left; exists [], q; constructor|].
  assert (Ho' : Forall loop_call (os ++ o)) by (apply Forall_app; split; [exact Ho|exact (Forall_inv Ht)]). destruct (Hd q Hq) as [Hd1 Hd2].
  destruct (jit_any_turn (os ++ o) L q Ho' HL Hq Hd1 Hd2) as (pd & Hpd & [(Q & Q' & _ & _ & _ & Lc & _ & Hso)|(E & X)]).
  - assert (Lv : List.length (sol_primal (So Q')) = m_nv m) by (rewrite Hone; exact Lc).
    destruct (integrate_spec m Wj q _ dt Hq Lv) as (q1 & Hi & L1 & _).
    assert (St : forall ts tr qn, jitted_loop L So m dt (prog ++ (os ++ o) ++ [WCompile 0]) ts q1 (sol_primal (So Q')) tr qn -> jitted_loop L So m dt (prog ++ os) (o :: ts) q s ((q, under_jit pd, sol_primal (So Q')) :: tr) qn).
    { intros ts tr qn C. apply (jitted_turn L So m dt (prog ++ os) o ts q s pd (So Q') (sol_primal (So Q')) q1 tr qn); [rewrite <- app_assoc; exact Hpd|apply Hso|exact Hi|]. rewrite <- !app_assoc. rewrite <- !app_assoc in C. exact C. }
    destruct (IH (Forall_inv_tail Ht) ((os ++ o) ++ [WCompile 0]) q1 (sol_primal (So Q'))) as [(tr & qn & C)|(ts & os' & ts' & tr & q' & pd' & E1 & C & Ln & Hpd' & E & X)]; [apply Forall_app; split; [exact Ho'|repeat constructor]|exact L1| |].
    + left. exists ((q, under_jit pd, sol_primal (So Q')) :: tr), qn. now apply St.
    + right. exists (o :: ts), os', ts', ((q, under_jit pd, sol_primal (So Q')) :: tr), q', pd'. split; [cbn; congruence|]. split; [now apply St|]. split; [exact Ln|]. split; [|auto].
      unfold calls_of in *. cbn [map List.concat]. rewrite <- !app_assoc in Hpd' |- *. exact Hpd'.
  - right. exists [], o, turns, [], q, pd. split; [reflexivity|]. split; [constructor|]. split; [exact Hq|]. split; [cbn; rewrite <- app_assoc; exact Hpd|]. auto.
Qed.

Lemma jit_any_safe L So dt : Forall (mild dt) cs -> (0 <= dt)%R -> sound_lib L m -> keeps_scalars L m -> (forall q, List.length q = m_nq m -> wf_data m (update L m q) /\ Forall (evaluates L m q) cs) ->
  forall turns os q s tr qn, Forall (Forall loop_call) turns -> Forall (Forall keeps_limits) turns -> Forall loop_call os -> Forall keeps_limits os ->
  List.length q = m_nq m -> Forall (in_limits m q) cs -> jitted_loop L So m dt (prog ++ os) turns q s tr qn -> Forall (exact_turn L So m) tr ->
  Forall (possible_turn L m) tr \/ (below_zero lo /\ above_zero hi /\ Forall (tame m) cs /\ Forall soft_component cs) ->
  Forall (in_limits m qn) cs /\ Forall (fun t => Forall (in_limits m (fst (fst t))) cs) tr.
Proof.
  intros Hmi Hdt HL Hks Hd. induction turns as [|o turns IH]; intros os q s tr qn Ht Hkt Ho Hk Hq Hin C Hex Hp; inversion C as [|? ? ? ? ? pd sol v q1 tr' ? Hpd Hso Hi C']; subst; [now split|].
  assert (Ho' : Forall loop_call (os ++ o)) by (apply Forall_app; split; [exact Ho|exact (Forall_inv Ht)]).
  assert (Hk' : Forall keeps_limits (os ++ o)) by (apply Forall_app; split; [exact Hk|exact (Forall_inv Hkt)]).
  pose proof (Forall_inv Hex) as Hex0. destruct (Hd q Hq) as [Hd1 Hd2].
  rewrite <- app_assoc in Hpd. destruct (jit_any_turn (os ++ o) L q Ho' HL Hq Hd1 Hd2) as (pd2 & Hpd2 & Z). assert (pd2 = pd) by (unfold prog, compiled_by in *; congruence). subst pd2.
  destruct Z as [(Q & Q' & HQ & HQ' & Lc & Lc' & Ho2 & Hso2)|(E & _)]; [|rewrite E in Hso; discriminate].
  set (So1 := fun _ : qp => So Q'). destruct (Hso2 So s) as [_ Y]. rewrite Hso in Y. injection Y as -> ->. destruct (Hso2 So1 s) as [Z _].
  assert (E1 : exact_turn L So1 m (q, pd, sol_primal (So Q'))).
  { intros Q2 H2. rewrite HQ in H2. injection H2 as <-. unfold exact_turn in Hex0. specialize (Hex0 Q' HQ'). unfold minimises in *. intros n Hn0 (x & Hx).
    rewrite Lc in Hn0. subst n. apply Ho2. apply (Hex0 (m_nv m) (eq_sym Lc')). exists x. now apply Ho2. }
  assert (Hadm : exists w, admissible L (update L m q) pd w).
  { destruct Hp as [Hp|(P1 & P2 & P3 & P4)].
    - pose proof (Forall_inv Hp) as (w & A). exists w. destruct A as (A1 & A2 & A3 & A4). repeat split; auto. eapply Permutation_Forall; [apply Permutation_sym, jit_comps|exact A4].
    - exists (vzero (m_nv m)). now apply (soft_turn m lo hi cs Hm Wl Wh Hc Hw Fl Fh Nd Hs Hpl (os ++ o) pd dt). }
  destruct (any_safe m lo hi cs Hm Wl Wh Hc Hw Fl Fh Nd Hs Hpl (os ++ o) pd L So1 dt q s (So Q') (sol_primal (So Q')) q1 Ho' Hk' Hmi Hdt HL Hks Hq Hd1 Hd2 Hin Hpd E1 Hadm Z Hi) as (_ & S2 & S3).
  destruct (IH ((os ++ o) ++ [WCompile 0]) q1 (sol_primal (So Q')) tr' qn (Forall_inv_tail Ht) (Forall_inv_tail Hkt)) as [R1 R2]; auto.
  - apply Forall_app. split; [exact Ho'|repeat constructor].
  - apply Forall_app. split; [exact Hk'|repeat constructor].
  - rewrite <- !app_assoc in C' |- *. exact C'.
  - exact (Forall_inv_tail Hex).
  - destruct Hp as [Hp|Hp]; [left; exact (Forall_inv_tail Hp)|right; exact Hp].
Qed.

(** All lanes run, or some lane meets an idle barrier. *)
Lemma lanes_dec N (P R : nat -> Prop) : (forall i, i < N -> P i \/ R i) -> (forall i, i < N -> P i) \/ exists i, i < N /\ R i.
Proof.
  induction N as [|N IH]; intros H; [left; intros i Hi; lia|]. destruct IH as [A|(i & Hi & A)]; [intros i Hi; apply H; lia| |right; exists i; split; [lia|exact A]].
  destruct (H N (Nat.lt_succ_diag_r N)) as [B|B]; [|right; exists N; auto]. left. intros i Hi. destruct (Nat.eq_dec i N) as [->|]; [exact B|apply A; lia].
Qed.
Lemma prog_legal pre : Forall loop_call pre -> Forall legal (prog ++ pre).
Proof.
  intros Hp. apply Forall_app. split; [now apply setup_legal|]. apply tuned_ops. eapply Forall_impl; [|exact Hp]. intros o [[X _] _]. exact X.
Qed.
Lemma any_batches L So dt N places t tm pre turns q s : Forall loop_call pre -> sound_lib L m -> (forall q, List.length q = m_nq m -> wf_data m (update L m q) /\ Forall (evaluates L m q) cs) -> one_entry_each So ->
  fst (set_vmap_dimension 0 (state (prog ++ pre))) = Ok t -> set_axes places t = Ok tm -> stacked N places ((prog ++ pre) ++ [WCompile 0]) turns ->
  Forall (Forall (fun k => vectors N (snd k))) turns -> (forall i, i < N -> List.length (q i) = m_nq m) ->
  (exists tr qn, vmapped_loop L So m dt N tm ((prog ++ pre) ++ [WCompile 0]) turns q s tr qn) \/
  (exists i ts ks ts' tr q' pd, i < N /\ turns = ts ++ ks :: ts' /\ jitted_loop L So m dt ((prog ++ pre) ++ [WCompile 0]) (rows_of i ts) (q i) (s i) tr q' /\
     compiled_by (((prog ++ pre) ++ [WCompile 0]) ++ calls_of (rows_of i ts) ++ map (as_row i) ks) 0 pd /\ (forall s', solve L So m (tvec q') s' (under_jit pd) = Err NonFinite) /\ idle_barrier L (update L m q') pd).
Proof.
  intros Hpre HL Hd Hone Ht Ha St V Hq. pose proof (prog_legal pre Hpre) as Lg. destruct (lanes_are_loops L So m dt N (prog ++ pre) t places tm turns q s Lg Ht Ha St) as [_ B].
  assert (C1 : Forall loop_call (pre ++ [WCompile 0])) by (apply Forall_app; split; [exact Hpre|repeat constructor]).
  destruct (lanes_dec N (fun i => exists tr qn, jitted_loop L So m dt ((prog ++ pre) ++ [WCompile 0]) (rows_of i turns) (q i) (s i) tr qn) (fun i => exists ts ks ts' tr q' pd, turns = ts ++ ks :: ts' /\ jitted_loop L So m dt ((prog ++ pre) ++ [WCompile 0]) (rows_of i ts) (q i) (s i) tr q' /\
     compiled_by (((prog ++ pre) ++ [WCompile 0]) ++ calls_of (rows_of i ts) ++ map (as_row i) ks) 0 pd /\ (forall s', solve L So m (tvec q') s' (under_jit pd) = Err NonFinite) /\ idle_barrier L (update L m q') pd)) as [A|(i & Hi & X)].
  - intros i Hi. destruct (jit_any_loop L So dt (rows_of i turns) HL Hd Hone (rows_calls N places i turns _ Hi St V) (pre ++ [WCompile 0]) (q i) (s i) C1 (Hq i Hi)) as [A|(ts & os' & ts' & tr & q' & pd & E & J & _ & R)]; [left; rewrite app_assoc in A; exact A|right]. destruct R as (R1 & R2 & R3). rewrite (app_assoc prog pre) in J, R1.
    unfold rows_of in E. apply map_eq_app in E as (k1 & k2 & -> & E1 & E2). apply map_eq_cons in E2 as (ks & k3 & -> & E3 & E4). subst ts os'.
    exists k1, ks, k3, tr, q', pd. auto.
  - left. now apply B.
  - right. destruct X as (ts & ks & ts' & tr & q' & pd & X). exists i, ts, ks, ts', tr, q', pd. tauto.
Qed.
Lemma tame_batches L So dt N places t tm pre turns q s : Forall loop_call pre -> Forall (tame m) cs -> sound_lib L m -> (forall q, List.length q = m_nq m -> wf_data m (update L m q) /\ Forall (evaluates L m q) cs) -> one_entry_each So ->
  fst (set_vmap_dimension 0 (state (prog ++ pre))) = Ok t -> set_axes places t = Ok tm -> stacked N places ((prog ++ pre) ++ [WCompile 0]) turns ->
  Forall (Forall (fun k => vectors N (snd k))) turns -> (forall i, i < N -> List.length (q i) = m_nq m) ->
  exists tr qn, vmapped_loop L So m dt N tm ((prog ++ pre) ++ [WCompile 0]) turns q s tr qn.
Proof.
  intros Hpre Htm HL Hd Hone Ht Ha St V Hq. destruct (any_batches L So dt N places t tm pre turns q s Hpre HL Hd Hone Ht Ha St V Hq) as [R|(i & ts & ks & ts' & tr & q' & pd & Hi & -> & _ & Hpd & _ & X)]; [exact R|]. exfalso.
  pose proof (rows_calls N places i _ _ Hi St V) as C. unfold rows_of in C. rewrite map_app in C. apply Forall_app in C as [C1 C2].
  rewrite <- !app_assoc in Hpd. apply (tame_bar m lo hi cs Hm Wl Wh Hc Hw Fl Fh Nd Hs Hpl (pre ++ [WCompile 0] ++ calls_of (rows_of i ts) ++ map (as_row i) ks) pd L (update L m q')); [|exact Hpd|exact Htm|exact X].
  apply Forall_app. split; [exact Hpre|]. apply Forall_app. split; [repeat constructor|]. apply Forall_app. split; [now apply calls_loop|exact (Forall_inv C2)].
Qed.
Lemma any_batches_safe L So dt N places t tm pre turns q s tr qn : Forall loop_call pre -> Forall keeps_limits pre -> Forall (mild dt) cs -> (0 <= dt)%R -> sound_lib L m -> keeps_scalars L m ->
  (forall q, List.length q = m_nq m -> wf_data m (update L m q) /\ Forall (evaluates L m q) cs) ->
  fst (set_vmap_dimension 0 (state (prog ++ pre))) = Ok t -> set_axes places t = Ok tm -> stacked N places ((prog ++ pre) ++ [WCompile 0]) turns ->
  Forall (Forall (fun k => vectors N (snd k))) turns -> Forall (Forall (fun k => keeps_limits (as_step k))) turns ->
  vmapped_loop L So m dt N tm ((prog ++ pre) ++ [WCompile 0]) turns q s tr qn ->
  forall i, i < N -> List.length (q i) = m_nq m -> Forall (in_limits m (q i)) cs -> Forall (exact_turn L So m) (lane i tr) ->
  Forall (possible_turn L m) (lane i tr) \/ (below_zero lo /\ above_zero hi /\ Forall (tame m) cs /\ Forall soft_component cs) ->
  Forall (in_limits m (qn i)) cs /\ Forall (fun t => Forall (in_limits m (fst (fst t) i)) cs) tr.
Proof.
  intros Hpre Hkp Hmi Hdt HL Hks Hd Ht Ha St V K J i Hi Hq Hin Hex Hp. pose proof (prog_legal pre Hpre) as Lg. destruct (lanes_are_loops L So m dt N (prog ++ pre) t places tm turns q s Lg Ht Ha St) as [A _].
  specialize (A tr qn J i Hi). assert (C1 : Forall loop_call (pre ++ [WCompile 0])) by (apply Forall_app; split; [exact Hpre|repeat constructor]). assert (C2 : Forall keeps_limits (pre ++ [WCompile 0])) by (apply Forall_app; split; [exact Hkp|repeat constructor]). rewrite <- app_assoc in A.
  destruct (jit_any_safe L So dt Hmi Hdt HL Hks Hd (rows_of i turns) (pre ++ [WCompile 0]) (q i) (s i) (lane i tr) (qn i)) as [R1 R2]; auto.
  - eapply rows_calls; eauto.
  - now apply rows_keep.
  - split; [exact R1|]. unfold lane in R2. rewrite Forall_map in R2. exact R2.
Qed.
End Any.
