(** Lemmas and concrete programs behind PropsProblem. *)
From Verif Require Import Base Lin LinFacts Mjx Typing Component Problem SpecComponent SpecJoint SpecHistory SpecProblem Witness.
From Verif Require Import ComponentFacts ComponentFacts2 ApiSteps ProblemFacts ShareFacts CompThms2.
Open Scope nat_scope.
#[local] Arguments update_model : simpl never.

Lemma problem_contents os pi p : problem_of (state os) pi p ->
  NoDup (map fst (p_comps p)) /\
  exists ks, StronglySorted lt ks /\ Forall2 (fun k e => added_at pi os k (fst e) (snd e)) ks (p_comps p) /\
    (forall k n ci, added_at pi os k n ci -> In k ks).
Proof. intros H. assert (C := contents os pi). unfold problem_of in H. rewrite H in C. destruct C as [C D]. split; [exact D|exact C]. Qed.

Lemma remove_step w pi p n : problem_of w pi p ->
  fst (step (WRemove pi n) w) = Ok ODone /\
  (~ In n (map fst (p_comps p)) -> snd (step (WRemove pi n) w) = w) /\
  w_comps (snd (step (WRemove pi n) w)) = w_comps w /\
  (forall pi', pi' <> pi -> nth_error (w_probs (snd (step (WRemove pi n) w))) pi' = nth_error (w_probs w) pi') /\
  exists p', problem_of (snd (step (WRemove pi n) w)) pi p' /\ p_model p' = p_model p /\ p_vmin p' = p_vmin p /\ p_vmax p' = p_vmax p /\
    (forall k i, In (k, i) (p_comps p') <-> In (k, i) (p_comps p) /\ k <> n).
Proof.
  intros H. unfold problem_of in *. cbn [step]. unfold remove_component. rewrite H.
  destruct (has_name n p) eqn:E.
  - cbn [fst snd]. split; [reflexivity|]. split; [intros Hn; apply has_name_in in E; contradiction|]. split; [reflexivity|]. split.
    + intros pi' Hp. apply nth_replace_other. congruence.
    + eexists. split; [eapply nth_replace_same; exact H|]. cbn. repeat (split; [reflexivity|]). intros. apply remove_name_in.
  - cbn [fst snd]. split; [reflexivity|]. split; [reflexivity|]. split; [reflexivity|]. split; [reflexivity|].
    exists p. split; [exact H|]. repeat (split; [reflexivity|]). intros k i. split; [|now intros [? _]].
    intros Hi. split; [exact Hi|]. intros ->. apply (in_map fst) in Hi. cbn [fst] in Hi. apply has_name_in in Hi. congruence.
Qed.

Lemma failed_add w pi ci e w' : step (WAdd pi ci) w = (Err e, w') ->
  w_probs w' = w_probs w /\
  (forall cj, cj <> ci -> nth_error (w_comps w') cj = nth_error (w_comps w) cj) /\
  (forall p c, problem_of w pi p -> nth_error (w_comps w) ci = Some c -> In (a_name (c_at c)) (map fst (p_comps p)) ->
     e = ValueError /\ w' = w).
Proof.
  intros H. split; [|split].
  - cbn [step] in H. unfold add_component in H. destruct (nth_error (w_probs w) pi) as [p|]; [|now injection H as <- <-].
    destruct (nth_error (w_comps w) ci) as [c|]; [|now injection H as <- <-]. destruct (has_name _ p); [now injection H as <- <-|].
    destruct (update_model (p_model p) c) as [[]]; [discriminate|]. now injection H as <- <-.
  - intros cj Hc. cbn [step] in H. unfold add_component in H. destruct (nth_error (w_probs w) pi) as [p|]; [|now injection H as <- <-].
    destruct (nth_error (w_comps w) ci) as [c|]; [|now injection H as <- <-]. destruct (has_name _ p); [now injection H as <- <-|].
    destruct (update_model (p_model p) c) as [[]]; [discriminate|]. injection H as <- <-. cbn. apply nth_replace_other. congruence.
  - intros p c Hp Hc Hn. rewrite (add_duplicate pi ci w p c Hp Hc Hn) in H. now injection H as <- <-.
Qed.
(** When does adding raise?  On a duplicate name, or exactly when binding raises. *)
Lemma add_outcome w pi ci p c : problem_of w pi p -> nth_error (w_comps w) ci = Some c ->
  ~ In (a_name (c_at c)) (map fst (p_comps p)) ->
  fst (step (WAdd pi ci) w) = match fst (update_model (p_model p) c) with Ok _ => Ok ODone | Err e => Err e end.
Proof.
  intros Hp Hc Hn. cbn [step]. unfold add_component. unfold problem_of in Hp. rewrite Hp, Hc.
  destruct (has_name (a_name (c_at c)) p) eqn:E; [apply has_name_in in E; contradiction|].
  destruct (update_model (p_model p) c) as [[]]; reflexivity.
Qed.

Lemma typed_lookup os pi p n : problem_of (state os) pi p ->
  let w := state os in
  (forall i, fst (step (WComponent pi n) w) = Ok (ORef i) <-> In (n, i) (p_comps p)) /\
  (forall i, fst (step (WTask pi n) w) = Ok (ORef i) <-> In (n, i) (p_comps p) /\
      exists c cost lm k, nth_error (w_comps w) i = Some c /\ a_ext (c_at c) = XTask cost lm k) /\
  (forall i, fst (step (WBarrier pi n) w) = Ok (ORef i) <-> In (n, i) (p_comps p) /\
      exists c s k, nth_error (w_comps w) i = Some c /\ a_ext (c_at c) = XBarrier s k) /\
  (forall o, In o [WComponent pi n; WTask pi n; WBarrier pi n] ->
     ((exists i, fst (step o w) = Ok (ORef i)) \/ fst (step o w) = Err ValueError) /\ snd (step o w) = w).
Proof.
  intros H. cbv zeta. assert (ID := ids_always os).
  destruct (lookup_spec (fun _ => true) os pi p n H) as [C1 C2].
  destruct (lookup_spec is_task os pi p n H) as [T1 T2].
  destruct (lookup_spec is_barrier os pi p n H) as [B1 B2].
  split; [|split; [|split]].
  - intros i. specialize (C1 i). cbn [step]. unfold component. rewrite C1. split; [tauto|]. intros Hi. split; [exact Hi|].
    destruct (nth_error (w_comps (state os)) i) eqn:E; [eauto|]. apply nth_error_None in E. specialize (ID _ _ _ _ H Hi). lia.
  - intros i. specialize (T1 i). cbn [step]. unfold task. rewrite T1. apply and_iff_compat_l. unfold is_task. split.
    + intros (c & Hc & Ht). destruct (a_ext (c_at c)) eqn:E; try discriminate. eauto 8.
    + intros (c & cost & lm & k & Hc & E). exists c. split; [exact Hc|]. now rewrite E.
  - intros i. specialize (B1 i). cbn [step]. unfold barrier. rewrite B1. apply and_iff_compat_l. unfold is_barrier. split.
    + intros (c & Hc & Ht). destruct (a_ext (c_at c)) eqn:E; try discriminate. eauto 8.
    + intros (c & s & k & Hc & E). exists c. split; [exact Hc|]. now rewrite E.
  - intros o [<-|[<-|[<-|[]]]]; cbn [step]; unfold component, task, barrier; (split; [assumption|apply lookup_world]).
Qed.

Lemma limit_iff m t v : wf_tensor t -> (limit_vector m t = Ok v <-> limit_means (m_nv m) t v).
Proof.
  intros Hw. split; [intros H; now destruct (limit_vector_ok m t v Hw H)|apply limit_vector_complete].
Qed.
Lemma limits_length os pi p : Forall wf_wop os -> problem_of (state os) pi p ->
  List.length (p_vmin p) = m_nv (p_model p) /\ List.length (p_vmax p) = m_nv (p_model p).
Proof.
  intros H Hp. assert (F := limits_always os H). rewrite Forall_forall in F. apply F. eapply nth_error_In. exact Hp.
Qed.
Lemma limit_update w pi p t : problem_of w pi p -> wf_tensor t ->
  (forall v, limit_means (m_nv (p_model p)) t v ->
     step (WVmin pi t) w = (Ok ODone, mkW (w_comps w) (replace_nth pi (mkP (p_model p) v (p_vmax p) (p_comps p)) (w_probs w))) /\
     step (WVmax pi t) w = (Ok ODone, mkW (w_comps w) (replace_nth pi (mkP (p_model p) (p_vmin p) v (p_comps p)) (w_probs w)))) /\
  ((forall v, ~ limit_means (m_nv (p_model p)) t v) ->
     step (WVmin pi t) w = (Err ValueError, w) /\ step (WVmax pi t) w = (Err ValueError, w)).
Proof.
  intros Hp Hw. unfold problem_of in Hp. cbn [step]. rewrite Hp. unfold update_v_min, update_v_max. split.
  - intros v Hv. apply limit_iff in Hv; [|exact Hw]. rewrite Hv. cbn. split; reflexivity.
  - intros Hn. destruct (limit_vector_err (p_model p) t Hw) as [(v & Hv)|E].
    + exfalso. apply (Hn v). now apply limit_iff.
    + rewrite E. split; reflexivity.
Qed.
Lemma new_problem_limits w m lo hi : wf_tensor lo -> wf_tensor hi ->
  (forall v1 v2, limit_means (m_nv m) lo v1 -> limit_means (m_nv m) hi v2 ->
     problem_of (snd (step (WNewProblem m lo hi) w)) (List.length (w_probs w)) (mkP m v1 v2 [])) /\
  ((forall v, ~ limit_means (m_nv m) lo v) \/ (forall v, ~ limit_means (m_nv m) hi v) ->
     step (WNewProblem m lo hi) w = (Err ValueError, w)).
Proof.
  intros W1 W2. cbn [step]. unfold new_problem. split.
  - intros v1 v2 H1 H2. apply limit_iff in H1, H2; try assumption. rewrite H1, H2. cbn. unfold problem_of. cbn.
    rewrite nth_error_app2 by lia. now rewrite Nat.sub_diag.
  - intros Hn. destruct (limit_vector_err m lo W1) as [(v1 & H1)|E1].
    + rewrite H1. cbn [bind]. destruct (limit_vector_err m hi W2) as [(v2 & H2)|E2].
      * exfalso. destruct Hn as [Hn|Hn]; [apply (Hn v1)|apply (Hn v2)]; now apply limit_iff.
      * rewrite E2. reflexivity.
    + rewrite E1. reflexivity.
Qed.

(** ** Concrete programs *)
Definition other_task : comp := mkC (mkA "hold" None (tscalar 1) (fun x => x) (-1) None []
  (XTask (tscalar 1) 0%R (TJoint (mkJT None None None)))) true None.
Lemma other_task_made : constructed other_task.
Proof.
  eapply made_joint_task with (name := "hold"%string) (cost := tscalar 1) (gain := tscalar 1) (gf := None) (lm := 0%R) (mk := None).
  unfold new_joint_task, init_task. cbn. rewrite not_neg0. reflexivity.
Qed.
Definition demo_prog : list wop :=
  [WNewProblem arm2 (tscalar (-1)) (tvec [1; 2]%R); WNewComp demo_task; WNewComp other_task;
   WAdd 0 0; WAdd 0 1; WAdd 0 0; WRemove 0 "reach"; WCompile 0; WVmin 0 (tvec [1; 2; 3]%R); WAdd 0 0].
Definition demo_prob : prob := mkP arm2 [-1; -1]%R [1; 2]%R [("hold"%string, 1); ("reach"%string, 0)].
Lemma demo_prog_ok : problem_of (state demo_prog) 0 demo_prob /\ Forall legal demo_prog /\ Forall wf_wop demo_prog /\
  added_at 0 demo_prog 9 "reach" 0 /\ added_at 0 demo_prog 4 "hold" 1 /\ ~ added_at 0 demo_prog 3 "reach" 0 /\ ~ added_at 0 demo_prog 5 "reach" 0.
Proof.
  split; [vm_compute; reflexivity|]. split; [repeat constructor; try exact demo_task_made; exact other_task_made|]. split; [repeat constructor|].
  split; [|split; [|split]].
  - split; [reflexivity|]. split; [vm_compute; reflexivity|]. split; [eexists; split; [vm_compute; reflexivity|reflexivity]|]. intros [].
  - split; [reflexivity|]. split; [vm_compute; reflexivity|]. split; [eexists; split; [vm_compute; reflexivity|reflexivity]|].
    cbn. intros H. repeat (destruct H as [H|H]; [discriminate|]). exact H.
  - intros (_ & _ & _ & H). apply H. cbn. tauto.
  - intros (_ & H & _). vm_compute in H. discriminate.
Qed.
Lemma demo_compile : exists d, fst (step (WCompile 0) (state demo_prog)) = Ok (OData d) /\ map fst (jd_comps d) = ["hold"; "reach"]%string.
Proof. eexists. split; [vm_compute; reflexivity|reflexivity]. Qed.
Lemma demo_failed_add : exists w', step (WAdd 0 0) (state demo_prog) = (Err ValueError, w') /\
  exists w'', step (WAdd 1 0) (state (demo_prog ++ [WNewProblem (with_names arm2 []) (tscalar 0) (tscalar 1)])) = (Err ValueError, w'').
Proof. eexists. split; [vm_compute; reflexivity|]. eexists. vm_compute; reflexivity. Qed.

(** *** Sharing *)
Definition share_prog : list wop :=
  [WNewProblem (chain [JHinge]) (tscalar 0) (tscalar 1); WNewProblem arm2 (tscalar 0) (tscalar 1);
   WNewComp other_task; WAdd 0 0; WCompile 0].
Lemma sharing_breaks : exists os p1 p2 ci d d',
  Forall legal os /\ p1 <> p2 /\
  fst (step (WCompile p1) (state os)) = Ok (OData d) /\
  fst (step (WCompile p1) (snd (step (WAdd p2 ci) (state os)))) = Ok (OData d') /\
  jd_comps d <> jd_comps d' /\ fst (step (WAdd p2 ci) (state os)) = Err ValueError.
Proof.
  exists share_prog, 0, 1, 0. do 2 eexists. split; [repeat constructor; exact other_task_made|]. split; [discriminate|].
  split; [vm_compute; reflexivity|]. split; [vm_compute; reflexivity|]. split; [|vm_compute; reflexivity].
  cbn. intros H. discriminate.
Qed.
Definition free_prog : list wop :=
  [WNewProblem (chain [JFree]) (tscalar 0) (tscalar 1); WNewProblem (with_names arm2 []) (tscalar 0) (tscalar 1); WNewComp demo_task; WAdd 0 0].
(** The object component silently refers to body -1 afterwards. *)
Lemma sharing_breaks_object : exists os p1 p2 ci d d' j,
  Forall legal os /\ p1 <> p2 /\
  fst (step (WCompile p1) (state os)) = Ok (OData d) /\
  fst (step (WAdd p2 ci) (state os)) = Err ValueError /\
  fst (step (WCompile p1) (snd (step (WAdd p2 ci) (state os)))) = Ok (OData d') /\
  jd_comps d' = [("reach"%string, j)] /\ (exists W lm t, j_ext j = JTask W lm (JTPos (-1) OBody t)) /\ jd_comps d <> jd_comps d'.
Proof.
  exists free_prog, 0, 1, 0. do 3 eexists. split; [repeat constructor; exact demo_task_made|]. split; [discriminate|].
  split; [vm_compute; reflexivity|]. split; [vm_compute; reflexivity|]. split; [vm_compute; reflexivity|].
  split; [reflexivity|]. split; [do 3 eexists; reflexivity|]. cbn. intros H. discriminate.
Qed.
Definition good_share : list wop :=
  [WNewProblem arm2 (tscalar 0) (tscalar 1); WNewProblem arm2 (tscalar 0) (tscalar 5);
   WNewComp other_task; WAdd 0 0; WCop 0 (OpTargetQ (tvec [1; 2]%R)); WCompile 0].
Lemma good_share_ok : wf_joints arm2 /\ Forall legal good_share /\ Forall (single arm2) good_share /\
  (exists p, problem_of (state good_share) 0 p /\ In ("hold"%string, 0) (p_comps p)) /\
  fst (step (WAdd 1 0) (state good_share)) = Ok ODone /\ is_ok (fst (step (WCompile 0) (state good_share))) = true.
Proof.
  split; [apply chain_joints|]. split; [repeat constructor; exact other_task_made|]. split; [repeat constructor|].
  split; [eexists; split; [vm_compute; reflexivity|left; reflexivity]|]. split; vm_compute; reflexivity.
Qed.
Lemma default_limits w m : problem_of (snd (step (WNewProblem m default_vmin default_vmax) w)) (List.length (w_probs w))
  (mkP m (repeat (-1000)%R (m_nv m)) (repeat 1000%R (m_nv m)) []).
Proof. apply (proj1 (new_problem_limits w m default_vmin default_vmax eq_refl eq_refl)); left; eexists; split; reflexivity. Qed.
