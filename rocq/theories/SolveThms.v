(** Whole programs: the local IK solver returns the best admissible velocity. *)
From Verif Require Import Base Lin LinFacts Mjx Typing Component Problem SpecComponent SpecProblem SpecShape SpecFit JaxComponents LocalIK SpecQP QPFacts QPThms QPThms2 QPThms3 QPThms4 SpecSolve SolveFacts FitFacts3.
Open Scope R_scope.

Section Assembled.
Context (L : lib) (sm : mjmodel) (pd : jdata) (d : mjdata) (Q : qp).
Context (Hnv : m_nv sm = m_nv (jd_model pd)) (HQ : assemble L sm pd d = Ok Q).
Notation nv := (m_nv (jd_model pd)).
Context (Hs : Forall (well_shaped L nv d) (comps_of pd)) (H1 : List.length (jd_vmin pd) = nv) (H2 : List.length (jd_vmax pd) = nv).

Lemma optimal_best v : optimal nv Q v <-> best L d pd v.
Proof.
  destruct (objective_is_cost L sm pd d Q Hnv HQ Hs) as [k0 G]. split.
  - intros (Lv & Fv & Ov). split; [now apply (feasible_admissible L sm pd d Q Hnv HQ)|]. destruct (G v Lv) as (x & X1 & X2). exists x. split; [exact X1|].
    intros w Hw. pose proof (proj1 Hw) as Lw. destruct (G w Lw) as (y & Y1 & Y2). exists y. split; [exact Y1|].
    assert (Fw : feasible Q w) by now apply (feasible_admissible L sm pd d Q Hnv HQ). specialize (Ov w Lw Fw). unfold objective in Ov. lra.
  - intros (Av & x & X1 & X2). pose proof (proj1 Av) as Lv. split; [exact Lv|]. split; [now apply (feasible_admissible L sm pd d Q Hnv HQ)|].
    intros w Lw Fw. assert (Aw : admissible L d pd w) by now apply (feasible_admissible L sm pd d Q Hnv HQ). destruct (X2 w Aw) as (y & Y1 & Y2).
    destruct (G v Lv) as (x' & X3 & X4). destruct (G w Lw) as (y' & Y3 & Y4). rewrite (total_cost_fun L d _ _ _ _ X1 X3), (total_cost_fun L d _ _ _ _ Y1 Y3) in Y2. unfold objective. lra.
Qed.
Lemma best_exists : (exists v, admissible L d pd v) -> exists v, best L d pd v.
Proof.
  intros (v & Hv). destruct (exists_optimal L sm pd d Q Hnv HQ Hs H1 H2) as (w & Hw).
  - exists v. pose proof (proj1 Hv) as Lv. split; [exact Lv|]. now apply (feasible_admissible L sm pd d Q Hnv HQ).
  - exists w. now apply optimal_best.
Qed.
Lemma solver_best So : minimises So Q -> (exists v, admissible L d pd v) -> best L d pd (sol_primal (So Q)).
Proof.
  intros M E. apply optimal_best. apply M; [symmetry; apply (hessian_shape L sm pd d Q Hnv HQ)|]. destruct (best_exists E) as (v & Hv). exists v. now apply optimal_best.
Qed.
Lemma best_unique v w : Forall nonneg_weights (comps_of pd) -> Exists (pins L nv d) (comps_of pd) -> best L d pd v -> best L d pd w -> v = w.
Proof. intros Hn Hp Bv Bw. apply (unique_optimal L sm pd d Q Hnv HQ v w Hs Hn Hp); now apply optimal_best. Qed.
Lemma best_velocity v w : Forall nonneg_weights (comps_of pd) -> best L d pd v -> best L d pd w ->
  forall j, In j (comps_of pd) -> forall a b, weighted_velocity L d j v a -> weighted_velocity L d j w b -> a = b.
Proof. intros Hn Bv Bw. apply (unique_task_velocity L sm pd d Q Hnv HQ v w Hs Hn); now apply optimal_best. Qed.
End Assembled.

Section Program.
Context (L : lib) (m : mjmodel) (os : list wop) (pi : nat) (pd : jdata).
Context (Ht : tidy m os) (Hc : compiled_by os pi pd) (HL : sound_lib L m).

Lemma program_shaped d : wf_data m d -> Forall (accepted L d) (comps_of pd) ->
  m_nv m = m_nv (jd_model pd) /\ Forall (well_shaped L (m_nv (jd_model pd)) d) (comps_of pd) /\ List.length (jd_vmin pd) = m_nv (jd_model pd) /\ List.length (jd_vmax pd) = m_nv (jd_model pd).
Proof.
  intros Hd Ha. destruct (program_components m os pi pd Ht Hc) as (E & A & B & _). destruct (program_fits L m os pi pd d Ht Hc HL Hd Ha) as [_ F]. rewrite E.
  split; [reflexivity|]. split; [|auto]. eapply Forall_impl; [|exact F]. intros j. apply fits_shaped.
Qed.
Lemma program_best So q v0 : t_shape q = [m_nq m] -> let d := update L m (t_data q) in wf_data m d -> Forall (accepted L d) (comps_of pd) ->
  (forall Q, assemble L m pd d = Ok Q -> minimises So Q) -> (exists w, admissible L d pd w) ->
  (exists s v, solve L So m q v0 pd = Ok (s, v) /\ best L d pd v) \/
  (solve L So m q v0 pd = Err NonFinite /\ exists j J, In j (comps_of pd) /\ is_barrier j = true /\ jacobian L j d = Ok J /\ frob2 J = 0).
Proof.
  intros Hq d Hd Ha HS He. destruct (program_shaped d Hd Ha) as (E & F & A & B).
  destruct (program_solves L So m os pi pd q v0 Ht Hc HL Hq Hd Ha) as [(Q & HQ & HE)|X]; [left|right; exact X]. exists (So Q), (sol_primal (So Q)). split; [exact HE|].
  apply (solver_best L m pd d Q E HQ F A B); auto.
Qed.
Lemma program_rest So q v0 : t_shape q = [m_nq m] -> let d := update L m (t_data q) in wf_data m d -> Forall (accepted L d) (comps_of pd) ->
  (forall j J, In j (comps_of pd) -> is_barrier j = true -> jacobian L j d = Ok J -> frob2 J <> 0) ->
  (forall Q, assemble L m pd d = Ok Q -> minimises So Q) -> may_rest L d pd ->
  exists s v x y, solve L So m q v0 pd = Ok (s, v) /\ best L d pd v /\ total_cost L d (comps_of pd) v x /\ total_cost L d (comps_of pd) (vzero (m_nv m)) y /\ x <= y.
Proof.
  intros Hq d Hd Ha HJ HS Hr. destruct (program_shaped d Hd Ha) as (E & F & A & B). assert (Ar : admissible L d pd (vzero (m_nv (jd_model pd)))) by (apply rest_admissible; auto).
  destruct (program_best So q v0 Hq Hd Ha HS (ex_intro _ _ Ar)) as [(s & v & E1 & E2)|(_ & j & J & Hj & Hb & EJ & Z)]; [|now elim (HJ j J Hj Hb EJ)].
  pose proof E2 as (_ & x & X1 & X2). destruct (X2 _ Ar) as (y & Y1 & Y2). exists s, v, x, y. rewrite <- E in Y1. auto.
Qed.
Lemma program_unique d v w : wf_data m d -> Forall (accepted L d) (comps_of pd) ->
  (forall j J, In j (comps_of pd) -> is_barrier j = true -> jacobian L j d = Ok J -> frob2 J <> 0) ->
  Forall nonneg_weights (comps_of pd) -> best L d pd v -> best L d pd w ->
  (Exists (pins L (m_nv m) d) (comps_of pd) -> v = w) /\
  forall j, In j (comps_of pd) -> forall a b, weighted_velocity L d j v a -> weighted_velocity L d j w b -> a = b.
Proof.
  intros Hd Ha HJ Hn Bv Bw. destruct (program_shaped d Hd Ha) as (E & F & A & B). destruct (program_assembles L m os pi pd d Ht Hc HL Hd Ha HJ) as (Q & HQ). split.
  - rewrite E. intros Hp. now apply (best_unique L m pd d Q E HQ F A B v w).
  - now apply (best_velocity L m pd d Q E HQ F A B v w).
Qed.
End Program.
Lemma program_optimal L m os pi pd d Q v : tidy m os -> compiled_by os pi pd -> sound_lib L m -> wf_data m d -> Forall (accepted L d) (comps_of pd) ->
  assemble L m pd d = Ok Q -> (optimal (m_nv m) Q v <-> best L d pd v).
Proof. intros Ht Hc HL Hd Ha HQ. destruct (program_shaped L m os pi pd Ht Hc HL d Hd Ha) as (E & F & A & B). rewrite E. now apply (optimal_best L m pd d Q E HQ). Qed.
Lemma program_exists L m os pi pd d : tidy m os -> compiled_by os pi pd -> sound_lib L m -> wf_data m d -> Forall (accepted L d) (comps_of pd) ->
  (forall j J, In j (comps_of pd) -> is_barrier j = true -> jacobian L j d = Ok J -> frob2 J <> 0) ->
  (exists w, admissible L d pd w) -> exists v, best L d pd v.
Proof.
  intros Ht Hc HL Hd Ha HJ. destruct (program_shaped L m os pi pd Ht Hc HL d Hd Ha) as (E & F & A & B). destruct (program_assembles L m os pi pd d Ht Hc HL Hd Ha HJ) as (Q & HQ). now apply (best_exists L m pd d Q E HQ).
Qed.
