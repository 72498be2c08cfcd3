(** C94 for the problem of README.md. *)
From Verif Require Import Base Lin LinFacts Mjx Typing Component Problem SpecComponent SpecJoint SpecHistory SpecTyping SpecCollision SpecTree SpecShape SpecContact SpecValue SpecProblem SpecQP SpecFit SpecTrace SpecSetup.
From Verif Require Import ComponentFacts JointFacts SetupFacts SetupFacts2 SetupFacts5 Conf JaxComponents LocalIK SpecMotion SpecLoop SpecSolve SpecClosed ClosedThms.
Open Scope R_scope.
#[local] Arguments update_model : simpl never.
#[local] Arguments jax_component : simpl never.
#[local] Arguments build_component : simpl never.

Lemma two {A} (P : A -> Prop) a b : P a -> P b -> Forall P [a; b].
Proof. repeat constructor; assumption. Qed.
Lemma vle_map {A} (f g : A -> R) l : vle (map f l) (map g l) <-> forall x, In x l -> f x <= g x.
Proof.
  unfold vle. induction l as [|a l IH]; cbn; [split; [intros _ x []|constructor]|]. split.
  - intros H x [<-|Hx]; inversion H; subst; auto. now apply IH.
  - intros H. constructor; [apply H; now left|]. apply IH. intros x Hx. apply H. now right.
Qed.
Lemma limits_range m q n g gf sdg jb : new_joint_barrier n (tscalar g) gf sdg None None None = Ok jb -> (in_limits m q jb <-> in_range m q).
Proof.
  intros H. apply limits_new in H. subst jb. unfold in_limits. cbn [c_at a_ext new_comp]. unfold within, lower_limits, upper_limits, sel_pos, selected, in_range. cbn [jb_qmin jb_qmax jb_final].
  rewrite !vle_map. split.
  - intros [A B] j t Hj Ht. assert (I : In j (scalar_joints (m_jnt_type m) 0)).
    { apply scalar_joints_spec. rewrite Nat.sub_0_r. split; [split; [lia|]; apply nth_error_Some; unfold joint_type in Hj; rewrite Hj; discriminate|]. now exists t. }
    split; [now apply A|now apply B].
  - intros H. split; intros j Hj; apply scalar_joints_spec in Hj as (_ & t & Hj & Ht); rewrite Nat.sub_0_r in Hj; now apply (H j t).
Qed.
Lemma limits_track m n g gf sdg jb : (0 < n_scalar m)%nat -> new_joint_barrier n (tscalar g) gf sdg None None None = Ok jb -> tracks m jb.
Proof.
  intros Hn H. apply limits_new in H. subst jb. cbn. unfold n_scalar in Hn. destruct (scalar_joints (m_jnt_type m) 0); [cbn in Hn; lia|discriminate].
Qed.
Lemma limits_mild n g sdg jb dt : 0 <= g -> g * dt <= 1 -> new_joint_barrier n (tscalar g) None sdg None None None = Ok jb -> mild dt jb.
Proof. intros H0 H1 H. apply limits_new in H. subst jb. cbn. split; [reflexivity|]. constructor; [now split|constructor]. Qed.

Lemma readme_closed m s i lo hi cost g1 g2 lm d ft jb L So dt turns q s0 : sound_model m -> has_object m OBody s i -> (0 < n_scalar m)%nat ->
  wf_tensor lo -> wf_tensor hi -> limit_fits m lo -> limit_fits m hi -> below_zero lo -> above_zero hi ->
  new_frame_task "ee_task" (tscalar cost) (tscalar g1) s OBody None lm None = Ok ft ->
  new_joint_barrier "jnt_range" (tscalar g2) None d None None None = Ok jb ->
  0 <= dt -> 0 <= g2 -> g2 * dt <= 1 -> sound_lib L m -> keeps_scalars L m -> (forall q, List.length q = m_nq m -> wf_data m (update L m q)) -> one_entry_each So ->
  Forall (Forall loop_call) turns -> Forall (Forall keeps_limits) turns -> List.length q = m_nq m -> in_range m q ->
  exists tr qn, control_loop L So m dt (setup m lo hi [ft; jb]) turns q s0 tr qn /\ List.length tr = List.length turns /\ List.length qn = m_nq m /\
  (Forall (exact_turn L So m) tr -> in_range m qn /\ Forall (fun t => in_range m (fst (fst t))) tr).
Proof.
  intros Hm Ho Hn Wl Wh Fl Fh Bl Bh Hf Hj Hdt Hg Hgd HL Hks Hd Hone Ht Hk Hq Hin.
  destruct (frame_suits _ _ _ _ _ _ _ _ Hf Ho) as (F1 & F2 & F3 & F4 & F5). destruct (limits_suits _ _ _ _ _ m Hj) as (J1 & J2 & J3 & J4 & J5).
  assert (Hc : Forall constructed [ft; jb]) by (apply two; assumption).
  assert (Hw : Forall (fun c => wf_arrays (c_at c)) [ft; jb]) by (apply two; assumption).
  assert (Nd : NoDup (map nm [ft; jb])). { cbn. rewrite F5, J5. constructor; [intros [X|[]]; discriminate|]. constructor; [intros []|constructor]. }
  assert (Hs : Forall (fun c => exists d, suits m c d) [ft; jb]) by (apply two; eauto).
  assert (Hpl : Forall (plain m) [ft; jb]) by (apply two; assumption).
  assert (Htr : Forall (tracks m) [ft; jb]).
  { constructor; [|constructor; [exact (limits_track _ _ _ _ _ _ Hn Hj)|constructor]]. apply frame_new in Hf. now subst ft. }
  assert (Hmi : Forall (mild dt) [ft; jb]).
  { constructor; [|constructor; [exact (limits_mild _ _ _ _ _ Hg Hgd Hj)|constructor]]. apply frame_new in Hf. now subst ft. }
  assert (Hil : forall x, Forall (in_limits m x) [ft; jb] <-> in_range m x).
  { intros x. rewrite <- (limits_range m x _ _ _ _ _ Hj). split; [intros H; exact (Forall_inv (Forall_inv_tail H))|]. intros H. constructor; [|constructor; [exact H|constructor]]. apply frame_new in Hf. now subst ft. }
  destruct (loop_runs m lo hi [ft; jb] Hm Wl Wh Hc Hw Fl Fh Nd Hs Hpl Htr L So dt turns HL Hd Hone Ht [] q s0 ltac:(constructor) Hq) as (tr & qn & C & Lt & Ln).
  exists tr, qn. rewrite app_nil_r in C. split; [exact C|]. split; [exact Lt|]. split; [exact Ln|]. intros Hex.
  destruct (loop_safe m lo hi [ft; jb] Hm Wl Wh Hc Hw Fl Fh Nd Hs Hpl Htr L So dt Bl Bh Hmi Hdt HL Hks Hd turns [] q s0 tr qn Ht Hk ltac:(constructor) ltac:(constructor) Hq ltac:(now apply Hil) ltac:(rewrite app_nil_r; exact C) Hex) as (_ & S2 & S3 & _).
  split; [now apply Hil|]. eapply Forall_impl; [|exact S3]. intros [[q' pd] v] [H _]. now apply Hil.
Qed.
Lemma loop_never_fails m lo hi cs L So dt turns q s : sound_model m -> wf_tensor lo -> wf_tensor hi -> Forall constructed cs -> Forall (fun c => wf_arrays (c_at c)) cs ->
  limit_fits m lo -> limit_fits m hi -> NoDup (map nm cs) -> Forall (fun c => exists d, suits m c d) cs -> Forall (plain m) cs -> Forall (tracks m) cs ->
  sound_lib L m -> (forall q, List.length q = m_nq m -> wf_data m (update L m q)) -> one_entry_each So -> Forall (Forall loop_call) turns -> List.length q = m_nq m ->
  exists tr qn, control_loop L So m dt (setup m lo hi cs) turns q s tr qn /\ List.length tr = List.length turns /\ List.length qn = m_nq m.
Proof.
  intros Hm Wl Wh Hc Hw Fl Fh Nd Hs Hpl Htr HL Hd Hone Ht Hq.
  destruct (loop_runs m lo hi cs Hm Wl Wh Hc Hw Fl Fh Nd Hs Hpl Htr L So dt turns HL Hd Hone Ht [] q s ltac:(constructor) Hq) as (tr & qn & C & H). rewrite app_nil_r in C. eauto.
Qed.
Lemma loop_keeps_limits m lo hi cs L So dt turns q s tr qn : sound_model m -> wf_tensor lo -> wf_tensor hi -> Forall constructed cs -> Forall (fun c => wf_arrays (c_at c)) cs ->
  limit_fits m lo -> limit_fits m hi -> NoDup (map nm cs) -> Forall (fun c => exists d, suits m c d) cs -> Forall (plain m) cs -> Forall (tracks m) cs ->
  sound_lib L m -> (forall q, List.length q = m_nq m -> wf_data m (update L m q)) -> keeps_scalars L m -> below_zero lo -> above_zero hi -> Forall (mild dt) cs -> 0 <= dt ->
  Forall (Forall loop_call) turns -> Forall (Forall keeps_limits) turns -> List.length q = m_nq m -> Forall (in_limits m q) cs ->
  control_loop L So m dt (setup m lo hi cs) turns q s tr qn -> Forall (exact_turn L So m) tr ->
  Forall (in_limits m qn) cs /\
  Forall (fun t => let '(q, pd, v) := t in Forall (in_limits m q) cs /\ best L (update L m q) pd v) tr /\
  (normalised m q -> normalised m qn /\ Forall (fun t => normalised m (fst (fst t))) tr).
Proof.
  intros Hm Wl Wh Hc Hw Fl Fh Nd Hs Hpl Htr HL Hd Hks Bl Bh Hmi Hdt Ht Hk Hq Hin C Hex.
  apply (loop_safe m lo hi cs Hm Wl Wh Hc Hw Fl Fh Nd Hs Hpl Htr L So dt Bl Bh Hmi Hdt HL Hks Hd turns [] q s tr qn Ht Hk); auto. rewrite app_nil_r. exact C.
Qed.
