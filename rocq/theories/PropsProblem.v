(** C09-C14: problems as collections of shared components. *)
From Verif Require Import Base Lin Mjx Typing Component Problem SpecComponent SpecJoint SpecHistory SpecProblem Witness CompThms2 ProbThms ShareFacts.
Open Scope nat_scope.

(** ** C09 *)
(** The i-th entry of a problem was added by call number [ks_i] and its name was
    not removed later; [ks] is increasing (so order is insertion order) and misses
    no such call; names are unique. *)
Theorem C09_problem_is_an_ordered_map os pi p : problem_of (state os) pi p ->
  NoDup (map fst (p_comps p)) /\
  exists ks, StronglySorted lt ks /\ Forall2 (fun k e => added_at pi os k (fst e) (snd e)) ks (p_comps p) /\
    (forall k n ci, added_at pi os k n ci -> In k ks).
Proof. exact (problem_contents os pi p). Qed.
Print Assumptions C09_problem_is_an_ordered_map.
Theorem C09_duplicate_name_rejected w pi ci p c : problem_of w pi p -> nth_error (w_comps w) ci = Some c ->
  In (a_name (c_at c)) (map fst (p_comps p)) -> step (WAdd pi ci) w = (Err ValueError, w).
Proof. exact (ProblemFacts.add_duplicate pi ci w p c). Qed.
Print Assumptions C09_duplicate_name_rejected.
Theorem C09_remove w pi p n : problem_of w pi p ->
  fst (step (WRemove pi n) w) = Ok ODone /\
  (~ In n (map fst (p_comps p)) -> snd (step (WRemove pi n) w) = w) /\
  w_comps (snd (step (WRemove pi n) w)) = w_comps w /\
  (forall pi', pi' <> pi -> nth_error (w_probs (snd (step (WRemove pi n) w))) pi' = nth_error (w_probs w) pi') /\
  exists p', problem_of (snd (step (WRemove pi n) w)) pi p' /\ p_model p' = p_model p /\ p_vmin p' = p_vmin p /\ p_vmax p' = p_vmax p /\
    (forall k i, In (k, i) (p_comps p') <-> In (k, i) (p_comps p) /\ k <> n).
Proof. exact (remove_step w pi p n). Qed.
Print Assumptions C09_remove.
(** Two components added, one re-added (rejected), removed, then added again: it
    comes last. *)
Example C09_case : problem_of (state demo_prog) 0 demo_prob /\ Forall legal demo_prog /\ Forall wf_wop demo_prog /\
  added_at 0 demo_prog 9 "reach" 0 /\ added_at 0 demo_prog 4 "hold" 1 /\ ~ added_at 0 demo_prog 3 "reach" 0 /\ ~ added_at 0 demo_prog 5 "reach" 0.
Proof. exact demo_prog_ok. Qed.

(** ** C10 *)
Theorem C10_failed_add_leaves_problem w pi ci e w' : step (WAdd pi ci) w = (Err e, w') ->
  w_probs w' = w_probs w /\
  (forall cj, cj <> ci -> nth_error (w_comps w') cj = nth_error (w_comps w) cj) /\
  (forall p c, problem_of w pi p -> nth_error (w_comps w) ci = Some c -> In (a_name (c_at c)) (map fst (p_comps p)) ->
     e = ValueError /\ w' = w).
Proof. exact (failed_add w pi ci e w'). Qed.
Print Assumptions C10_failed_add_leaves_problem.
(** Adding raises on a duplicate name and otherwise exactly when binding raises. *)
Theorem C10_add_outcome w pi ci p c : problem_of w pi p -> nth_error (w_comps w) ci = Some c ->
  ~ In (a_name (c_at c)) (map fst (p_comps p)) ->
  fst (step (WAdd pi ci) w) = match fst (update_model (p_model p) c) with Ok _ => Ok ODone | Err e => Err e end.
Proof. exact (add_outcome w pi ci p c). Qed.
Print Assumptions C10_add_outcome.
Example C10_case : exists w', step (WAdd 0 0) (state demo_prog) = (Err ValueError, w') /\
  exists w'', step (WAdd 1 0) (state (demo_prog ++ [WNewProblem (with_names arm2 []) (tscalar 0) (tscalar 1)])) = (Err ValueError, w'').
Proof. exact demo_failed_add. Qed.

(** ** C11 *)
Theorem C11_typed_lookup os pi p n : problem_of (state os) pi p ->
  let w := state os in
  (forall i, fst (step (WComponent pi n) w) = Ok (ORef i) <-> In (n, i) (p_comps p)) /\
  (forall i, fst (step (WTask pi n) w) = Ok (ORef i) <-> In (n, i) (p_comps p) /\
      exists c cost lm k, nth_error (w_comps w) i = Some c /\ a_ext (c_at c) = XTask cost lm k) /\
  (forall i, fst (step (WBarrier pi n) w) = Ok (ORef i) <-> In (n, i) (p_comps p) /\
      exists c s k, nth_error (w_comps w) i = Some c /\ a_ext (c_at c) = XBarrier s k) /\
  (forall o, In o [WComponent pi n; WTask pi n; WBarrier pi n] ->
     ((exists i, fst (step o w) = Ok (ORef i)) \/ fst (step o w) = Err ValueError) /\ snd (step o w) = w).
Proof. exact (typed_lookup os pi p n). Qed.
Print Assumptions C11_typed_lookup.
Example C11_case : problem_of (state demo_prog) 0 demo_prob /\
  fst (step (WTask 0 "reach") (state demo_prog)) = Ok (ORef 0) /\ fst (step (WBarrier 0 "reach") (state demo_prog)) = Err ValueError /\
  fst (step (WComponent 0 "none") (state demo_prog)) = Err ValueError.
Proof. split; [exact (proj1 demo_prog_ok)|repeat split]. Qed.

(** ** C12 *)
Theorem C12_limits_have_length_nv os pi p : Forall wf_wop os -> problem_of (state os) pi p ->
  List.length (p_vmin p) = m_nv (p_model p) /\ List.length (p_vmax p) = m_nv (p_model p).
Proof. exact (limits_length os pi p). Qed.
Print Assumptions C12_limits_have_length_nv.
Theorem C12_limit_update w pi p t : problem_of w pi p -> wf_tensor t ->
  (forall v, limit_means (m_nv (p_model p)) t v ->
     step (WVmin pi t) w = (Ok ODone, mkW (w_comps w) (replace_nth pi (mkP (p_model p) v (p_vmax p) (p_comps p)) (w_probs w))) /\
     step (WVmax pi t) w = (Ok ODone, mkW (w_comps w) (replace_nth pi (mkP (p_model p) (p_vmin p) v (p_comps p)) (w_probs w)))) /\
  ((forall v, ~ limit_means (m_nv (p_model p)) t v) ->
     step (WVmin pi t) w = (Err ValueError, w) /\ step (WVmax pi t) w = (Err ValueError, w)).
Proof. exact (limit_update w pi p t). Qed.
Print Assumptions C12_limit_update.
Theorem C12_initial_limits w m lo hi : wf_tensor lo -> wf_tensor hi ->
  (forall v1 v2, limit_means (m_nv m) lo v1 -> limit_means (m_nv m) hi v2 ->
     problem_of (snd (step (WNewProblem m lo hi) w)) (List.length (w_probs w)) (mkP m v1 v2 [])) /\
  ((forall v, ~ limit_means (m_nv m) lo v) \/ (forall v, ~ limit_means (m_nv m) hi v) ->
     step (WNewProblem m lo hi) w = (Err ValueError, w)).
Proof. exact (new_problem_limits w m lo hi). Qed.
Print Assumptions C12_initial_limits.
(** Without limits given, every degree of freedom may move at up to 1000 either way. *)
Theorem C12_default_limits w m : problem_of (snd (step (WNewProblem m default_vmin default_vmax) w)) (List.length (w_probs w))
  (mkP m (repeat (-1000)%R (m_nv m)) (repeat 1000%R (m_nv m)) []).
Proof. exact (default_limits w m). Qed.
Print Assumptions C12_default_limits.
Example C12_case : problem_of (state demo_prog) 0 demo_prob /\ limit_means 2 (tvec [1; 2]%R) [1; 2]%R /\ limit_means 2 (tscalar 3) [3; 3]%R /\
  (forall v, ~ limit_means 2 (tvec [1; 2; 3]%R) v).
Proof.
  split; [exact (proj1 demo_prog_ok)|]. split; [right; split; reflexivity|]. split; [left; eexists; split; reflexivity|].
  intros v [(x & H & _)|[H _]]; discriminate.
Qed.

(** ** C13 *)
(** For every program, [compile] is determined by the current state only. *)
Theorem C13_compile_is_a_snapshot os pi p : Forall legal os -> problem_of (state os) pi p ->
  let w := state os in
  (forall d, fst (step (WCompile pi) w) = Ok (OData d) <->
     jd_model d = p_model p /\ jd_vmin d = p_vmin p /\ jd_vmax d = p_vmax p /\
     Forall2 (fun e r => fst r = fst e /\ exists c, nth_error (w_comps w) (snd e) = Some c /\ fst (jax_component c) = Ok (snd r))
             (p_comps p) (jd_comps d)) /\
  ((exists d, fst (step (WCompile pi) w) = Ok (OData d)) <->
     forall n i, In (n, i) (p_comps p) -> exists c j, nth_error (w_comps w) i = Some c /\ fst (jax_component c) = Ok j) /\
  same_visible w (snd (step (WCompile pi) w)) /\
  fst (step (WCompile pi) (snd (step (WCompile pi) w))) = fst (step (WCompile pi) w).
Proof. exact (compile_spec os pi p). Qed.
Print Assumptions C13_compile_is_a_snapshot.
Example C13_case : Forall legal demo_prog /\ problem_of (state demo_prog) 0 demo_prob /\
  exists d, fst (step (WCompile 0) (state demo_prog)) = Ok (OData d) /\ map fst (jd_comps d) = ["hold"; "reach"]%string.
Proof. split; [exact (proj1 (proj2 demo_prog_ok))|]. split; [exact (proj1 demo_prog_ok)|exact demo_compile]. Qed.

(** ** C14 *)
(** The property fails: even a failing [add_component] of a second problem changes
    what the first problem compiles. *)
Theorem C14_sharing_is_safe_refuted : exists os p1 p2 ci d d',
  Forall legal os /\ p1 <> p2 /\
  fst (step (WCompile p1) (state os)) = Ok (OData d) /\
  fst (step (WCompile p1) (snd (step (WAdd p2 ci) (state os)))) = Ok (OData d') /\
  jd_comps d <> jd_comps d' /\ fst (step (WAdd p2 ci) (state os)) = Err ValueError.
Proof. exact sharing_breaks. Qed.
Print Assumptions C14_sharing_is_safe_refuted.
(** After a failing add, the first problem's task tracks object number -1. *)
Theorem C14_failed_add_redirects_object_refuted : exists os p1 p2 ci d d' j,
  Forall legal os /\ p1 <> p2 /\
  fst (step (WCompile p1) (state os)) = Ok (OData d) /\
  fst (step (WAdd p2 ci) (state os)) = Err ValueError /\
  fst (step (WCompile p1) (snd (step (WAdd p2 ci) (state os)))) = Ok (OData d') /\
  jd_comps d' = [("reach"%string, j)] /\ (exists W lm t, j_ext j = JTask W lm (JTPos (-1) OBody t)) /\ jd_comps d <> jd_comps d'.
Proof. exact sharing_breaks_object. Qed.
Print Assumptions C14_failed_add_redirects_object_refuted.
(** It holds for components the first problem does not contain ... *)
Theorem C14_other_components_partial os p1 p2 p ci : Forall legal os -> problem_of (state os) p1 p -> p1 <> p2 ->
  (forall n, ~ In (n, ci) (p_comps p)) ->
  fst (step (WCompile p1) (snd (step (WAdd p2 ci) (state os)))) = fst (step (WCompile p1) (state os)).
Proof. exact (share_other os p1 p2 p ci). Qed.
Print Assumptions C14_other_components_partial.
(** ... and for shared components when all problems use one model.
    Missing: problems with different models (false, see above). *)
Theorem C14_one_model_partial m os p1 p2 p ci : wf_joints m -> Forall legal os -> Forall (single m) os -> problem_of (state os) p1 p -> p1 <> p2 ->
  fst (step (WCompile p1) (snd (step (WAdd p2 ci) (state os)))) = fst (step (WCompile p1) (state os)).
Proof. exact (share_same m os p1 p2 p ci). Qed.
Print Assumptions C14_one_model_partial.
Example C14_case : wf_joints arm2 /\ Forall legal good_share /\ Forall (single arm2) good_share /\
  (exists p, problem_of (state good_share) 0 p /\ In ("hold"%string, 0) (p_comps p)) /\
  fst (step (WAdd 1 0) (state good_share)) = Ok ODone /\ is_ok (fst (step (WCompile 0) (state good_share))) = true.
Proof. exact good_share_ok. Qed.
