(** C121: stacks of targets are accepted at any time. *)
From Verif Require Import Base Lin LinFacts Mjx Typing Component Problem SpecComponent SpecJoint SpecHistory SpecTyping SpecCollision SpecTree SpecShape SpecContact SpecValue SpecProblem SpecQP SpecFit SpecTrace SpecSetup.
From Verif Require Import ComponentFacts JointFacts BindFacts BindThms ProblemFacts ProbThms FitFacts FitFacts3 TraceFacts SetupFacts SetupFacts2 SetupFacts3 SetupFacts4 SetupFacts5 JaxComponents LocalIK SpecSolve SpecClosed JaxTree SpecJaxTree SpecBatch SpecVmap BatchFacts BatchFacts2 BatchFacts3 BatchThms JaxTreeThms VmapFacts SpecLanes SpecStacks LanesLoop.
Open Scope nat_scope.
#[local] Arguments update_model : simpl never.
#[local] Arguments run_cop : simpl never.

Lemma last_two n d (t : tensor) z : t_shape t = [n; d] -> z = Z.of_nat d -> last_dim_neq t z = Ok false.
Proof. intros E ->. unfold last_dim_neq, last_dim. rewrite E. cbn. now rewrite Z.eqb_refl. Qed.

Section Stacks.
Context (m : mjmodel) (lo hi : tensor) (cs : list comp).
Context (Hm : sound_model m) (Wl : wf_tensor lo) (Wh : wf_tensor hi) (Hc : Forall constructed cs) (Hw : Forall (fun c => wf_arrays (c_at c)) cs).
Context (Fl : limit_fits m lo) (Fh : limit_fits m hi) (Nd : NoDup (map nm cs)) (Hs : Forall (fun c => exists d, suits m c d) cs).
Let prog := setup m lo hi cs.

Lemma stack_steers N c o k : takes_stack m N c o -> steering (WCop k o) /\ batched N o /\ vectors N o.
Proof.
  intros (t & A & W & M). assert (S : exists d, t_shape t = [N; d] /\ match o with OpTargetFrame (FSE3 _) => d = 7 | _ => True end).
  { destruct o as [| | | | |[]| | | | | | | | |]; destruct (a_ext (c_at c)) as [? ? []|? []|? ? ? []]; try contradiction; try (destruct M as (d & _ & M)); eauto. }
  destruct S as (d & S & X). assert (B : batched N o) by (exists t, [d]; repeat split; auto; discriminate). split; [exact (step_steers N o k B)|]. split; [exact B|]. exists t, d. auto.
Qed.
Lemma stack_step N os k c o : Forall steering os -> nth_error cs k = Some c -> takes_stack m N c o ->
  (forall n', fst (step (WComponent 0 n') (state (prog ++ os))) = Ok (ORef k) <-> n' = nm c) /\
  (forall c', nth_error (w_comps (state (prog ++ os))) k = Some c' -> stored o c') /\ fst (step (WCop k o) (state (prog ++ os))) = Ok ODone.
Proof.
  intros Hst Hk Ht. assert (Tn : Forall tuning_step os) by (eapply Forall_impl; [|exact Hst]; intros x [X _]; exact X).
  destruct (setup_tuned m lo hi cs os Hm Wl Wh Hc Hw Fl Fh Nd Hs Tn) as (p & Ep & P1 & P2 & P3 & _). change (setup m lo hi cs) with prog in Ep, P3. set (w := state (prog ++ os)) in *.
  destruct (Forall2_nth _ _ _ _ _ P3 Hk) as (c' & E' & d & D & C & K & _).
  assert (Q : SetupFacts3.class_of (a_ext (c_at c')) = SetupFacts3.class_of (a_ext (c_at c))).
  { destruct K as (_ & _ & _ & _ & K). rewrite <- class_bare, K, class_bare. apply (class_bound m c d Hm D). pose proof (nth_error_In _ _ Hk) as Hin. rewrite Forall_forall in Hc, Hw.
    destruct (suits_usable m c d) as [U _]; auto; [now apply made_reachable, Hc|now apply TraceFacts.arrays_core, Hw]. }
  assert (Dm : a_dim (c_at c') = Z.of_nat d) by (destruct K as (_ & K & _); destruct C as (C & _); congruence).
  split; [|split].
  - intros n'. rewrite (lookup_assoc 0 n' k w p Ep).
    + rewrite P2. split.
      * intros Hin. destruct (in_entries m cs 0 n' k Hin) as (c2 & A & _ & B & _). rewrite Nat.sub_0_r in A. congruence.
      * intros ->. exact (entries_in cs 0 k c Hk).
    + intros n i Hin. rewrite P2 in Hin. destruct (in_entries m cs 0 n i Hin) as (c2 & A & _). rewrite Nat.sub_0_r in A. pose proof P3 as Ln. apply Forall2_length in Ln. rewrite <- Ln. apply nth_error_Some. congruence.
    + rewrite P2. now apply names_nodup.
  - intros c2 H2. rewrite E' in H2. injection H2 as <-. unfold stored. destruct Ht as (t & _ & _ & M).
    destruct o as [| | | | |[]| | | | | | | | |]; destruct (a_ext (c_at c)) as [? ? []|? []|? ? ? []]; try contradiction; cbn in Q; destruct (a_ext (c_at c')) as [? ? []|? []|? ? ? []]; try discriminate; exact I.
  - destruct Ht as (t & A & W & M). cbn [step]. rewrite E'. unfold suits in D.
    assert (R : fst (run_cop o c') = Ok tt).
    { unfold run_cop. destruct o as [| | |t0|t0|[t0|t0]|t0|t0|t0|t0|t0| | | |]; destruct (a_ext (c_at c)) as [? ? []|? []|? ? ? []] eqn:E; try contradiction; cbn in Q; destruct (a_ext (c_at c')) as [? ? []|? []|? ? ? []] eqn:E2; try discriminate;
        injection A as ->; cbn in D.
      - destruct M as (d' & M1 & M2). destruct D as (_ & _ & D). assert (d' = d) by (apply Nat2Z.inj; congruence). subst d'. unfold update_target_com, mbind, read, lift. cbn [fst snd]. rewrite E2. cbn. rewrite Dm, (last_two N d _ _ M2 eq_refl). reflexivity.
      - destruct M as (d' & M1 & M2). destruct D as (_ & _ & D & _). assert (d' = d) by (apply Nat2Z.inj; congruence). subst d'. unfold update_target_pos, mbind, read, lift. cbn [fst snd]. rewrite E2. cbn. rewrite Dm, (last_two N d _ _ M2 eq_refl). reflexivity.
      - unfold update_target_frame, mbind, read, lift. cbn [fst snd]. rewrite E2. reflexivity.
      - unfold update_target_frame, mbind, read, lift. cbn [fst snd]. rewrite E2. cbn. rewrite (last_two N 7 _ 7%Z M eq_refl). reflexivity.
      - destruct D as (_ & _ & _ & D & _). rewrite <- D in M. unfold update_target_q, mbind, read, lift. cbn [fst snd]. rewrite E2. cbn. rewrite Dm. destruct (Z.of_nat d =? -1)%Z; [reflexivity|]. rewrite (last_two N d _ _ M eq_refl). reflexivity. }
    destruct (run_cop o c') as [r c2]. cbn in R. subst r. reflexivity.
Qed.
Lemma stack_batch N ks : stack_turn m N cs ks -> forall os, Forall steering os ->
  batch N 0 ks (state (prog ++ os)) /\ Forall (fun k => vectors N (snd k)) ks /\ Forall steering (map as_step ks).
Proof.
  induction 1 as [|[[k n] o] ks (c & Hk & Hn & Ht) _ IH]; intros os Ho; [repeat split; constructor|]. cbn in Hk, Hn, Ht.
  destruct (stack_steers N c o k Ht) as (S1 & S2 & S3). destruct (stack_step N os k c o Ho Hk Ht) as (A & B & D).
  destruct (IH (os ++ [WCop k o])) as (I1 & I2 & I3); [apply Forall_app; split; [exact Ho|constructor; [exact S1|constructor]]|].
  split; [|split; constructor; assumption]. cbn [batch]. split; [subst n; exact A|]. split; [exact S2|]. split; [exact B|]. split; [exact D|].
  rewrite app_assoc, state_snoc in I1. exact I1.
Qed.
Lemma stacks_stacked N places turns : Forall (fun ks => stack_turn m N cs ks /\ forall p, In p (map place ks) <-> In p places) turns ->
  forall os, Forall steering os -> stacked N places (prog ++ os) turns.
Proof.
  induction 1 as [|ks turns (Hk & Hp) _ IH]; intros os Ho; [exact I|]. destruct (stack_batch N ks Hk os Ho) as (B & _ & St).
  cbn [stacked]. split; [exact B|]. split; [exact Hp|]. destruct (batched_loop m lo hi cs os N _ Hm Wl Wh Hc Hw Fl Fh Nd Hs Ho B) as (pd & _ & _ & C & _).
  split; [exists pd; exact C|]. rewrite <- app_assoc. apply IH. apply Forall_app. split; [exact Ho|]. apply Forall_app. split; [exact St|repeat constructor].
Qed.
Lemma stacks_vectors N turns : Forall (stack_turn m N cs) turns -> Forall (Forall (fun k => vectors N (snd k))) turns /\ Forall (Forall (fun k => keeps_limits (as_step k))) turns.
Proof.
  intros H. split; (eapply Forall_impl; [|exact H]); intros ks Hk.
  - now destruct (stack_batch N ks Hk [] ltac:(constructor)) as (_ & V & _).
  - eapply Forall_impl; [|exact Hk]. intros [[k n] o] (c & _ & _ & t & _ & _ & M). cbn in *. destruct o; try exact I; destruct (a_ext (c_at c)) as [? ? []|? []|? ? ? []]; contradiction.
Qed.
(** The template made before the loop takes axis 0 at the places. *)
Lemma stacks_template N places pre turns : Forall steering pre -> Forall (fun ks => stack_turn m N cs ks /\ forall p, In p (map place ks) <-> In p places) turns -> turns <> [] ->
  exists t tm, fst (set_vmap_dimension 0 (state (prog ++ pre))) = Ok t /\ set_axes places t = Ok tm.
Proof.
  intros Hp H Hne.
  assert (Lg : Forall legal (prog ++ pre)). { apply Forall_app. split; [now apply setup_legal|]. apply tuned_ops. eapply Forall_impl; [|exact Hp]. intros o [X _]. exact X. }
  destruct (loop_compiles m lo hi cs pre Hm Wl Wh Hc Hw Fl Fh Nd Hs Hp) as (pd & Cp & _).
  assert (Tt : exists t, fst (set_vmap_dimension 0 (state (prog ++ pre))) = Ok t).
  { pose proof (template_outcome 0 (state (prog ++ pre))) as T. assert (X : fst (compile 0 (state (prog ++ pre))) = Ok (OData pd)) by exact Cp.
    destruct (compile 0 (state (prog ++ pre))) as [[o'|e] w'] eqn:E; cbn in X; [|discriminate]. injection X as ->. destruct T as [t T]. exists t. now rewrite T. }
  destruct Tt as [t Tt]. exists t. assert (St : stacked N places ((prog ++ pre) ++ [WCompile 0]) turns).
  { rewrite <- app_assoc. apply stacks_stacked; [exact H|]. apply Forall_app. split; [exact Hp|repeat constructor]. }
  destruct (template_takes_axes N (prog ++ pre) t places turns Lg Tt St Hne) as [tm Ha]. now exists tm.
Qed.
End Stacks.
