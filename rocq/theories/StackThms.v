(** Proofs of C121. *)
From Verif Require Import Base Lin LinFacts Mjx Typing Component Problem SpecComponent SpecJoint SpecHistory SpecTyping SpecCollision SpecTree SpecShape SpecContact SpecSelf SpecValue SpecProblem SpecQP SpecFit SpecTrace SpecSetup.
From Verif Require Import BindThms2 ComponentFacts SetupFacts SetupFacts2 SetupFacts5 Conf JaxComponents LocalIK GlobalIK SpecMotion SpecLoop SpecSolve SpecGlobal SpecClosed SpecGLoop SpecAnyLoop ClosedThms2 AnyLoopThms AnyLoopThms2.
From Verif Require Import JaxTree SpecJaxTree SpecBatch SpecVmap SpecLanes LanesLoop LanesAny SpecStacks StackFacts StackCases.
Open Scope nat_scope.
#[local] Arguments update_model : simpl never.
#[local] Arguments jax_component : simpl never.
#[local] Arguments build_component : simpl never.

Section Thms.
Variables (m : mjmodel) (lo hi : tensor) (cs : list comp).
Hypothesis (Hm : sound_model m) (Wl : wf_tensor lo) (Wh : wf_tensor hi) (Fl : limit_fits m lo) (Fh : limit_fits m hi) (Nd : NoDup (map nm cs)) (Hr : Forall (ready m) cs).
Let prog := setup m lo hi cs.
Lemma ready_parts : Forall constructed cs /\ Forall (fun c => wf_arrays (c_at c)) cs /\ Forall (fun c => exists d, suits m c d) cs /\ Forall (plain m) cs.
Proof. repeat split; (eapply Forall_impl; [|exact Hr]); intros c (A & B & C & D); assumption. Qed.
Variables (N : nat) (places : list (list string)) (pre : list wop) (turns : list (list call)).
Hypothesis (Hpre : Forall loop_call pre) (Ht : Forall (fun ks => stack_turn m N cs ks /\ forall p, In p (map place ks) <-> In p places) turns) (Hne : turns <> []).
Lemma pre_steers : Forall steering pre.
Proof. eapply Forall_impl; [|exact Hpre]. intros o (A & _). exact A. Qed.
Lemma stacks_ready : (exists t tm, fst (set_vmap_dimension 0 (state (prog ++ pre))) = Ok t /\ set_axes places t = Ok tm) /\
  stacked N places ((prog ++ pre) ++ [WCompile 0]) turns /\ Forall (Forall (fun k => vectors N (snd k))) turns /\ Forall (Forall (fun k => keeps_limits (as_step k))) turns.
Proof.
  destruct ready_parts as (Hc & Hw & Hs & Hpl). pose proof pre_steers as Hst.
  split; [exact (stacks_template m lo hi cs Hm Wl Wh Hc Hw Fl Fh Nd Hs N places pre turns Hst Ht Hne)|]. split.
  - rewrite <- app_assoc. apply (stacks_stacked m lo hi cs Hm Wl Wh Hc Hw Fl Fh Nd Hs N places turns Ht). apply Forall_app. split; [exact Hst|repeat constructor].
  - apply (stacks_vectors m lo hi cs Hm Wl Wh Hc Hw Fl Fh Nd Hs N turns). eapply Forall_impl; [|exact Ht]. intros ks [A _]. exact A.
Qed.
Variables (L : lib) (So : qpsolver) (dt : R) (q s : nat -> vec).
Hypothesis (HL : sound_lib L m) (Hd : forall q, List.length q = m_nq m -> wf_data m (update L m q) /\ Forall (evaluates L m q) cs) (Hone : one_entry_each So) (Hq : forall i, i < N -> List.length (q i) = m_nq m).
Lemma stacks_outcome : exists t tm, fst (set_vmap_dimension 0 (state (prog ++ pre))) = Ok t /\ set_axes places t = Ok tm /\
  ((exists tr qn, vmapped_loop L So m dt N tm ((prog ++ pre) ++ [WCompile 0]) turns q s tr qn) \/
   (exists i ts ks ts' tr q' pd, i < N /\ turns = ts ++ ks :: ts' /\ jitted_loop L So m dt ((prog ++ pre) ++ [WCompile 0]) (rows_of i ts) (q i) (s i) tr q' /\
     compiled_by (((prog ++ pre) ++ [WCompile 0]) ++ calls_of (rows_of i ts) ++ map (as_row i) ks) 0 pd /\ (forall s', solve L So m (tvec q') s' (under_jit pd) = Err NonFinite) /\ idle_barrier L (update L m q') pd)).
Proof.
  destruct ready_parts as (Hc & Hw & Hs & Hpl). destruct stacks_ready as ((t & tm & E1 & E2) & St & V & _). exists t, tm. split; [exact E1|]. split; [exact E2|].
  exact (any_batches m lo hi cs Hm Wl Wh Hc Hw Fl Fh Nd Hs Hpl L So dt N places t tm pre turns q s Hpre HL Hd Hone E1 E2 St V Hq).
Qed.
Lemma stacks_run : Forall (tame m) cs -> exists t tm tr qn, fst (set_vmap_dimension 0 (state (prog ++ pre))) = Ok t /\ set_axes places t = Ok tm /\
  vmapped_loop L So m dt N tm ((prog ++ pre) ++ [WCompile 0]) turns q s tr qn.
Proof.
  intros Htm. destruct ready_parts as (Hc & Hw & Hs & Hpl). destruct stacks_ready as ((t & tm & E1 & E2) & St & V & _).
  destruct (tame_batches m lo hi cs Hm Wl Wh Hc Hw Fl Fh Nd Hs Hpl L So dt N places t tm pre turns q s Hpre Htm HL Hd Hone E1 E2 St V Hq) as (tr & qn & R). exists t, tm, tr, qn. auto.
Qed.
Lemma stacks_safe t tm tr qn : fst (set_vmap_dimension 0 (state (prog ++ pre))) = Ok t -> set_axes places t = Ok tm -> vmapped_loop L So m dt N tm ((prog ++ pre) ++ [WCompile 0]) turns q s tr qn ->
  Forall keeps_limits pre -> Forall (mild dt) cs -> (0 <= dt)%R -> keeps_scalars L m ->
  forall i, i < N -> Forall (in_limits m (q i)) cs -> Forall (exact_turn L So m) (lane i tr) ->
  Forall (possible_turn L m) (lane i tr) \/ (below_zero lo /\ above_zero hi /\ Forall (tame m) cs /\ Forall soft_component cs) ->
  Forall (in_limits m (qn i)) cs /\ Forall (fun t => Forall (in_limits m (fst (fst t) i)) cs) tr.
Proof.
  intros E1 E2 J Hk Hmi Hdt Hks i Hi Hin Hex Hp. destruct ready_parts as (Hc & Hw & Hs & Hpl). destruct stacks_ready as (_ & St & V & K).
  exact (any_batches_safe m lo hi cs Hm Wl Wh Hc Hw Fl Fh Nd Hs Hpl L So dt N places t tm pre turns q s tr qn Hpre Hk Hmi Hdt HL Hks Hd E1 E2 St V K J i Hi (Hq i Hi) Hin Hex Hp).
Qed.
(** With one joint barrier on all joints and nothing else that can fail. *)
Lemma squats_run jb n g sdg : new_joint_barrier n (tscalar g) None sdg None None None = Ok jb -> 0 < n_scalar m -> In jb cs -> (forall c, In c cs -> c = jb \/ (tame m c /\ soft_component c /\ (forall dt, mild dt c) /\ (forall q, in_limits m q c))) ->
  Forall keeps_limits pre -> below_zero lo -> above_zero hi -> (0 <= dt)%R -> (0 <= g)%R -> (g * dt <= 1)%R -> keeps_scalars L m ->
  exists t tm tr qn, fst (set_vmap_dimension 0 (state (prog ++ pre))) = Ok t /\ set_axes places t = Ok tm /\
    vmapped_loop L So m dt N tm ((prog ++ pre) ++ [WCompile 0]) turns q s tr qn /\
    forall i, i < N -> in_range m (q i) -> Forall (exact_turn L So m) (lane i tr) -> in_range m (qn i) /\ Forall (fun t => in_range m (fst (fst t) i)) tr.
Proof.
  intros Hj Hn Hin Ho Hk Bl Ah Hdt Hg Hgd Hks. destruct (limits_ready _ _ _ _ m Hj Hn) as (_ & _ & J1 & J2 & J3 & J4 & _).
  assert (A1 : Forall (tame m) cs) by (apply Forall_forall; intros c Hc; destruct (Ho c Hc) as [->|(X & _)]; assumption).
  assert (A2 : Forall soft_component cs) by (apply Forall_forall; intros c Hc; destruct (Ho c Hc) as [->|(_ & X & _)]; assumption).
  assert (A3 : Forall (mild dt) cs) by (apply Forall_forall; intros c Hc; destruct (Ho c Hc) as [->|(_ & _ & X & _)]; auto).
  assert (A4 : forall x, Forall (in_limits m x) cs <-> in_range m x).
  { intros x. rewrite <- J4. rewrite Forall_forall. split; [auto|]. intros H c Hc. destruct (Ho c Hc) as [->|(_ & _ & _ & X)]; auto. }
  destruct (stacks_run A1) as (t & tm & tr & qn & E1 & E2 & R). exists t, tm, tr, qn. split; [exact E1|]. split; [exact E2|]. split; [exact R|]. intros i Hi Hq0 Hex.
  destruct (stacks_safe t tm tr qn E1 E2 R Hk A3 Hdt Hks i Hi ltac:(now apply A4) Hex) as [B1 B2]; [right; auto|]. split; [now apply A4|]. eapply Forall_impl; [|exact B2]. intros x Hx. now apply A4.
Qed.
End Thms.
