(** Property C106: moving a target a little moves the solution a little. *)
From Verif Require Import Base Lin LinFacts Mjx Typing Component Problem SpecComponent SpecJoint SpecHistory SpecProblem SpecShape SpecFit SpecValue Witness CompThms2 Rot SpecConf Conf FrameJac Collide JaxComponents LocalIK SpecQP SpecMotion SpecLoop SpecDeriv.
From Verif Require Import MotionFacts MotionFacts2 LoopFacts QPFacts QPThms QPThms2 QPThms3 QPThms4 QPCases MotionCases ConfCases ValueCases FitFacts FitFacts3 FitCases SpecSolve SolveFacts SolveThms ScaleFacts SpecDescent DescentFacts DescentFacts2 DescentThms DescentThms2 DescentCases SpecGoals GoalThms GoalThms2 GoalCases SpecTrade TradeFacts TradeThms.
From Verif Require Import TradeCases SpecTol SpecMove MoveFacts MoveThms MoveThms2 MoveCases.
Open Scope R_scope.

(** A program is compiled and solved; then one undamped joint, position or centre-of-mass
    task gets a new target, the problem is compiled again and solved at the same
    configuration.  With [y] the squared length of the change of that task's weighted
    error, the velocity of this task changes by no more than [y], and the velocities of
    all others by no more than y / 4, in squared weighted length. *)
Theorem C106_target_moves_solution L m os pi pd n ci j q t0 t e W k o pd' v v' : let d := update L m q in let y := sq (mv W (vsub (gained j e) (gained j (vadd e (vsub t0 t))))) in
  tidy m os -> compiled_by os pi pd -> registered os pi n ci -> In (n, j) (jd_comps pd) -> j_ext j = JTask W 0 k -> target_of j = Some t0 -> call L j d = Ok e -> List.length t0 = List.length e -> List.length t = List.length e ->
  aims t j o -> sound_lib L m -> wf_data m d -> Forall (accepted L d) (comps_of pd) ->
  (automatic j -> sound_jac (l_jacrev L) /\ smooth L j (List.length t0) q /\ kinematic L j /\ List.length q = m_nq m /\ d_qpos d = q) ->
  Forall nonneg_weights (others n pd) -> compiled_by (os ++ [WCop ci o]) pi pd' -> best L d pd v -> best L d pd' v' ->
  exists x zs, apart L d j v v' x /\ Forall2 (fun j z => apart L d j v v' z) (others n pd) zs /\ vsum zs <= y / 4 /\ x + 2 * vsum zs <= y.
Proof. exact (program_move L m os pi pd n ci j q t0 t e W k o pd' v v'). Qed.
Print Assumptions C106_target_moves_solution.

(** If some other component penalises every change of velocity with at least [lam] > 0,
    then the joint velocities themselves differ by at most y / (4 lam), in squared length. *)
Theorem C106_nearby_targets L m os pi pd n ci j q t0 t e W k o pd' v v' jr lam : let d := update L m q in let y := sq (mv W (vsub (gained j e) (gained j (vadd e (vsub t0 t))))) in
  tidy m os -> compiled_by os pi pd -> registered os pi n ci -> In (n, j) (jd_comps pd) -> j_ext j = JTask W 0 k -> target_of j = Some t0 -> call L j d = Ok e -> List.length t0 = List.length e -> List.length t = List.length e ->
  aims t j o -> sound_lib L m -> wf_data m d -> Forall (accepted L d) (comps_of pd) ->
  (automatic j -> sound_jac (l_jacrev L) /\ smooth L j (List.length t0) q /\ kinematic L j /\ List.length q = m_nq m /\ d_qpos d = q) ->
  Forall nonneg_weights (others n pd) -> compiled_by (os ++ [WCop ci o]) pi pd' -> best L d pd v -> best L d pd' v' ->
  In jr (others n pd) -> 0 < lam -> resists L (m_nv m) d jr lam -> sq (vsub v v') <= y / (4 * lam).
Proof. exact (near_targets L m os pi pd n ci j q t0 t e W k o pd' v v' jr lam). Qed.
Print Assumptions C106_nearby_targets.

(** Without a gain function, [y] is the squared weighted and gained distance of the targets. *)
Theorem C106_distance_of_targets j e t0 t W : (forall x, j_gain_fn j x = x) -> List.length (j_gain j) = List.length e -> List.length t0 = List.length e -> List.length t = List.length e ->
  sq (mv W (vsub (gained j e) (gained j (vadd e (vsub t0 t))))) = sq (mv W (vmul (j_gain j) (vsub t t0))).
Proof. exact (plain_shift j e t0 t W). Qed.
Print Assumptions C106_distance_of_targets.

(** Two tasks pull a hinge at angle 0 to 0 and to 1; then the second target moves to 0 too:
    the bound is attained. *)
Example C106_case : let d := update even_lib one [0] in let j := rival_j 1 in tidy one (rival_prog 1) /\ compiled_by (rival_prog 1) 0 (rival_pd 1) /\ registered (rival_prog 1) 0 "rival" 1 /\ In ("rival"%string, j) (jd_comps (rival_pd 1)) /\ (exists k, j_ext j = JTask [[1 * 1]] 0 k) /\
  target_of j = Some [1] /\ call even_lib j d = Ok [0 - 1] /\ aims [0] j (OpTargetQ (tvec [0])) /\ wf_data one d /\ Forall (accepted even_lib d) (comps_of (rival_pd 1)) /\ ~ automatic j /\
  Forall nonneg_weights (others "rival" (rival_pd 1)) /\ compiled_by calm_prog 0 calm_pd /\ best even_lib d (rival_pd 1) [1 / 4] /\ best even_lib d calm_pd [0] /\
  In (pull_j (1 / 2)) (others "rival" (rival_pd 1)) /\ resists even_lib 1 d (pull_j (1 / 2)) 1 /\
  (forall x, j_gain_fn j x = x) /\ sq (mv [[1 * 1]] (vmul (j_gain j) (vsub [0] [1]))) = 1 / 4 /\ sq (vsub [1 / 4] [0]) = 1 / 4 / (4 * 1).
Proof. exact calm_case. Qed.
