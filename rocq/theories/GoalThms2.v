(** Programs: errors of compatible goals decay at the rate of their gain. *)
From Verif Require Import Base Lin LinFacts Mjx Typing Component Problem SpecComponent SpecJoint SpecHistory SpecShape SpecValue SpecFit SpecConf Conf FitFacts JaxComponents LocalIK SpecQP QPFacts QPThms QPThms2 QPThms3 SpecSolve SolveFacts SolveThms SpecDescent DescentFacts DescentThms DescentThms2 SpecGoals GoalThms.
Open Scope R_scope.

Section Program.
Context (L : lib) (m : mjmodel) (os : list wop) (pi : nat) (pd : jdata) (Ht : tidy m os) (Hc : compiled_by os pi pd) (HL : sound_lib L m).
Section At.
Context (d : mjdata) (Hd : wf_data m d) (Ha : Forall (accepted L d) (comps_of pd)) (Hn : Forall nonneg_weights (comps_of pd)) (Hr : Forall cares (comps_of pd)).
Lemma shaped_at : m_nv m = m_nv (jd_model pd) /\ Forall (well_shaped L (m_nv (jd_model pd)) d) (comps_of pd).
Proof. destruct (program_shaped L m os pi pd Ht Hc HL d Hd Ha) as (A & B & _). auto. Qed.
Lemma program_met_iff v : best L d pd v -> admissible L d pd (vzero (m_nv m)) -> moving v ->
  (meets_goals L d v pd <-> Forall (quiet L d) (comps_of pd) /\ exists w, admissible L d pd w /\ meets_goals L d w pd).
Proof. destruct shaped_at as [E W]. rewrite E. intros. now apply met_iff. Qed.
Lemma program_best_iff v w : best L d pd v -> Forall (quiet L d) (comps_of pd) -> admissible L d pd w -> meets_goals L d w pd -> forall u, best L d pd u <-> admissible L d pd u /\ meets_goals L d u pd.
Proof. destruct shaped_at as [E W]. intros. now apply (best_iff_met L d pd v w). Qed.
Lemma program_met v w : best L d pd v -> Forall (quiet L d) (comps_of pd) -> admissible L d pd w -> meets_goals L d w pd -> meets_goals L d v pd.
Proof. intros Hb Hq Aw Mw. now apply (program_best_iff v w Hb Hq Aw Mw v). Qed.
End At.
Context (Hn : Forall nonneg_weights (comps_of pd)) (Hr : Forall cares (comps_of pd)).

(** Continuous time. *)
Lemma program_goal_flow a b vs ds j : (forall t, a < t < b -> wf_data m (ds t) /\ Forall (accepted L (ds t)) (comps_of pd) /\ best L (ds t) pd (vs t) /\ Forall (quiet L (ds t)) (comps_of pd) /\ exists w, admissible L (ds t) pd w /\ meets_goals L (ds t) w pd) ->
  In j (comps_of pd) -> seeks j = true -> flows L a b vs ds j -> (forall x, j_gain_fn j x = x) ->
  forall s t x y, a < s -> s <= t -> t < b -> call L j (ds s) = Ok x -> call L j (ds t) = Ok y ->
  List.length y = List.length x /\ forall i, (i < List.length x)%nat -> nth i y 0 = nth i x 0 * exp (- (nth i (j_gain j) 0 * (t - s))).
Proof.
  intros H Hj Hs Hf Hl. apply (hard_flow L (m_nv (jd_model pd)) a b vs ds j Hf); auto.
  - intros t T. destruct (H t T) as (D & A & _). destruct (shaped_at (ds t) D A) as [_ F]. rewrite Forall_forall in F. auto.
  - intros t T. destruct (H t T) as (D & A & B & Q & w & Aw & Mw). pose proof (program_met (ds t) D A Hn Hr (vs t) w B Q Aw Mw) as M. unfold meets_goals in M. rewrite Forall_forall in M. auto.
Qed.

(** Steps. *)
Lemma program_goal_steps dt vs ds j : (forall k, wf_data m (ds k) /\ Forall (accepted L (ds k)) (comps_of pd) /\ best L (ds k) pd (vs k) /\ Forall (quiet L (ds k)) (comps_of pd) /\ exists w, admissible L (ds k) pd w /\ meets_goals L (ds k) w pd) ->
  In j (comps_of pd) -> seeks j = true -> (forall k, advances L dt (vs k) (ds k) (ds (S k)) j) -> (forall x, j_gain_fn j x = x) ->
  exists e0, call L j (ds 0%nat) = Ok e0 /\ forall k, exists e, call L j (ds k) = Ok e /\ List.length e = List.length e0 /\
    forall i, (i < List.length e0)%nat -> nth i e 0 = (1 - nth i (j_gain j) 0 * dt) ^ k * nth i e0 0.
Proof.
  intros H Hj Hs Hf Hl.
  assert (V : forall k, exists e J, call L j (ds k) = Ok e /\ jacobian L j (ds k) = Ok J).
  { intros k. destruct (H k) as (D & A & (_ & x & (xs & F & _) & _) & _). clear - F Hj Hs. induction F as [|i y js xs Hc F IH]; [elim Hj|]. destruct Hj as [->|Hj]; [|auto].
    inversion Hc as [W lm t J e E EJ Ee|act W t J e E EJ Ee|g t J E EJ Hf|act W t E]; subst; try (exists e, J; auto; fail); unfold seeks in Hs; rewrite E in Hs; discriminate. }
  destruct (V 0%nat) as (e0 & J0 & E0 & _). exists e0. split; [exact E0|]. induction k as [|k (e & Ee & Le & Ne)]; [exists e0; split; [exact E0|]; split; [reflexivity|]; intros; cbn; ring|].
  destruct (V k) as (e' & J & Ee' & EJ). rewrite Ee in Ee'. injection Ee' as <-. destruct (H k) as (D & A & B & Q & w & Aw & Mw).
  pose proof (program_met (ds k) D A Hn Hr (vs k) w B Q Aw Mw) as M. unfold meets_goals in M. rewrite Forall_forall in M. destruct (shaped_at (ds k) D A) as [_ F]. rewrite Forall_forall in F.
  destruct (met_step L (m_nv (jd_model pd)) (ds k) (ds (S k)) dt (vs k) j e) as (e1 & E1 & L1 & N1); auto; [eauto|]. exists e1. split; [exact E1|]. split; [congruence|]. intros i Hi. rewrite N1, Ne by (rewrite ?Le; exact Hi). cbn. ring.
Qed.
End Program.
