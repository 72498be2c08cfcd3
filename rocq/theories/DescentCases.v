(** One hinge with range [-1, 1], pulled to 0 by a posture task of gain [g]. *)
From Verif Require Import Base Lin LinFacts Mjx Typing Component Problem SpecComponent SpecJoint SpecHistory SpecProblem SpecShape SpecFit SpecValue Witness CompThms2 Rot SpecConf Conf FrameJac Collide JaxComponents LocalIK SpecQP SpecMotion SpecLoop SpecDeriv.
From Verif Require Import MotionFacts MotionFacts2 LoopFacts QPFacts QPThms QPThms2 QPThms3 QPThms4 QPCases MotionCases ConfCases ValueCases FitFacts FitFacts3 FitCases SpecSolve SolveFacts SolveThms SpecDescent DescentFacts DescentFacts2 DescentThms DescentThms2.
Open Scope R_scope.

Section Pull.
Context (g : R).
Definition pull_task : comp := mkC (mkA "pull" None (tscalar g) (fun x => x) (-1) None []
  (XTask (tscalar 1) 0 (TJoint (mkJT None None None)))) true None.
Lemma pull_new : new_joint_task "pull" (tscalar 1) (tscalar g) None 0 None = Ok pull_task.
Proof. unfold new_joint_task, init_task. cbn. rewrite not_neg0. reflexivity. Qed.
Lemma pull_made : constructed pull_task.
Proof. eapply made_joint_task. exact pull_new. Qed.
Definition pull_ops : list cop := [OpModel one; OpTargetQ (tvec [0])].
Definition pull_prog : list wop :=
  [WNewProblem one (tscalar (-4)) (tscalar 4); WNewComp pull_task; WNewComp bar1; WAdd 0 0; WAdd 0 1; WCop 0 (OpTargetQ (tvec [0]))].
Definition pull_pd : jdata := Eval vm_compute in result (fst (step (WCompile 0) (run pull_prog empty_world))).
Definition pull_j : jaxc := Eval vm_compute in get_j (fst (jax_component (history pull_ops pull_task))) dummy_j.
Lemma pull_comps : comps_of pull_pd = [pull_j; lim1_j]. Proof. reflexivity. Qed.
Lemma pull_compiled : compiled_by pull_prog 0 pull_pd. Proof. vm_compute. reflexivity. Qed.
Lemma pull_tidy : tidy one pull_prog.
Proof.
  split; [apply chain_sound|]. split; [repeat constructor; [exact pull_made|exact bar1_made]|]. split; [repeat (constructor; [first [exact I|reflexivity]|]); constructor|].
  split; [repeat constructor|]. split; [repeat (constructor; [first [exact I|reflexivity|split; [reflexivity|first [exact I|reflexivity]]]|]); constructor|].
  intros k o Hk Hb. do 6 (destruct k as [|k]; [injection Hk as <-; first [contradiction | left; eexists; vm_compute; reflexivity]|]). destruct k; discriminate.
Qed.
Lemma pull_is : joint_task None pull_j /\ has_target pull_j [0] /\ uniform g pull_j.
Proof.
  split; [|split; [do 3 eexists; reflexivity|split; [repeat constructor|reflexivity]]].
  exists "pull"%string, (tscalar 1), (tscalar g), None, 0, pull_task, pull_ops. split; [exact pull_new|]. split; [repeat constructor|]. split; [cbn -[update_model]; split; [vm_compute; reflexivity|repeat split]|vm_compute; reflexivity].
Qed.
Lemma pull_posture dt : 0 <= g * dt <= 2 -> 0 <= dt <= 1 -> Forall (posture one dt) (comps_of pull_pd).
Proof.
  intros Hg Hd. rewrite pull_comps. destruct pull_is as (A & B & C). constructor; [now apply (po_task one dt _ None [0] g)|]. constructor; [|constructor].
  destruct lim1_case as (_ & _ & _ & D & E & F & G & _). apply (po_limits one dt _ None [-1] [1]); auto; [discriminate|]. rewrite G. constructor; [lra|]. constructor; [lra|]. constructor.
Qed.
Lemma even_keeps m : keeps_scalars even_lib m.
Proof. intros q Hq. split; [exact Hq|]. reflexivity. Qed.
Definition at_ (x : R) : mjdata := update even_lib one [x].
Lemma pull_task_at x : call even_lib pull_j (at_ x) = Ok [x - 0] /\ jacobian even_lib pull_j (at_ x) = Ok [[1]].
Proof. split; [reflexivity|vm_compute; reflexivity]. Qed.
Lemma pull_bar_at x : call even_lib lim1_j (at_ x) = Ok [x - -1; 1 - x] /\ jacobian even_lib lim1_j (at_ x) = Ok [[1]; [-1]].
Proof. split; [vm_compute; reflexivity|]. transitivity (@Ok mat ([[1]] ++ mneg [[1]])); [vm_compute; reflexivity|]. unfold mneg, vneg. cbn. repeat f_equal; lra. Qed.
Lemma vle1 a b : vle [a] [b] <-> a <= b.
Proof. unfold vle. split; [intros H; inversion H; assumption|intros; constructor; [assumption|constructor]]. Qed.
Lemma pull_admissible x v : admissible even_lib (at_ x) pull_pd v <-> exists u, v = [u] /\ -4 <= u <= 4 /\ - (x + 1) <= u <= 1 - x.
Proof.
  destruct (pull_bar_at x) as [B1 B2]. unfold admissible. rewrite pull_comps. split.
  - intros (Lv & A & B & C). destruct v as [|u [|]]; try discriminate. exists u. split; [reflexivity|]. cbn in A, B. apply vle1 in A. apply vle1 in B. inversion C as [|? ? _ C']; subst. inversion C' as [|? ? [C1 _] _]; subst.
    specialize (C1 eq_refl _ _ B2 B1). unfold gained, vle, mv, dot, vneg, vmul, vmap2 in C1. cbn in C1. inversion C1 as [|? ? ? ? K1 K2]; subst. inversion K2; subst. lra.
  - intros (u & -> & H1 & H2). split; [reflexivity|]. cbn [pull_pd jd_vmin jd_vmax]. split; [cbn; apply vle1; lra|]. split; [cbn; apply vle1; lra|]. constructor; [split; intros K; discriminate K|]. constructor; [|constructor].
    split; intros K; [|discriminate K]. intros J e EJ Ee. rewrite B2 in EJ. injection EJ as <-. rewrite B1 in Ee. injection Ee as <-. unfold gained, vle, mv, dot, vneg, vmul, vmap2. cbn. repeat (constructor; [lra|]). constructor.
Qed.
Lemma pull_cost x u : total_cost even_lib (at_ x) (comps_of pull_pd) [u] (1 / 2 * ((u + g * x) * (u + g * x))).
Proof.
  destruct (pull_task_at x) as [A1 A2], (pull_bar_at x) as [B1 B2]. rewrite pull_comps. eexists. split.
  - constructor; [eapply cost_task; [reflexivity|exact A2|exact A1]|]. constructor; [|constructor]. eapply cost_barrier; [reflexivity|exact B2|]. unfold frob2, dot, vmul, vmap2. cbn. lra.
  - unfold sq, gained, mv, vadd, dot, vmul, vmap2, frob2. cbn. field.
Qed.
Lemma pull_best x : -4 <= - (g * x) <= 4 -> - (x + 1) <= - (g * x) <= 1 - x -> best even_lib (at_ x) pull_pd [- (g * x)].
Proof.
  intros H1 H2. split; [apply pull_admissible; eauto|]. eexists. split; [apply pull_cost|]. intros w Hw. apply pull_admissible in Hw as (u & -> & _). eexists. split; [apply pull_cost|]. pose proof (Rle_0_sqr (u + g * x)) as K. unfold Rsqr in K. lra.
Qed.

(** A solver for this problem: the unconstrained minimiser. *)
Definition pull_solver : qpsolver := fun Q => mkSol (vneg (qp_c Q)) [] [].
Lemma pull_data x : wf_data one (at_ x) /\ Forall (accepted even_lib (at_ x)) (comps_of pull_pd).
Proof.
  split; [now apply even_wf|]. rewrite pull_comps. constructor; [exists [0]; reflexivity|]. constructor; [|constructor]. split; [exists [-1]|exists [1]]; split; reflexivity.
Qed.
Lemma pull_c x Q : assemble even_lib one pull_pd (at_ x) = Ok Q -> qp_c Q = [g * x].
Proof.
  intros H. destruct (pull_data x) as [D A]. destruct (program_shaped even_lib one pull_prog 0 pull_pd pull_tidy pull_compiled (even_sound one) (at_ x) D A) as (E & F & _).
  destruct (objective_is_cost even_lib one pull_pd (at_ x) Q E H F) as [k0 G]. destruct (hessian_shape even_lib one pull_pd (at_ x) Q E H) as [SP SC]. change (m_nv (jd_model pull_pd)) with 1%nat in *.
  destruct (G [1] eq_refl) as (y1 & Y1 & Z1). destruct (G [-1] eq_refl) as (y2 & Y2 & Z2). apply (total_cost_fun _ _ _ _ _ _ (pull_cost x 1)) in Y1. apply (total_cost_fun _ _ _ _ _ _ (pull_cost x (-1))) in Y2. subst y1 y2.
  destruct (qp_c Q) as [|c [|]]; try discriminate. destruct SP as [S1 S2]. destruct (qp_P Q) as [|r [|]]; try discriminate. inversion S2 as [|? ? S3 _]; subst. destruct r as [|p [|]]; try discriminate.
  unfold mv, dot, vmul, vmap2 in Z1, Z2. cbn in Z1, Z2. f_equal. lra.
Qed.
Lemma pull_solves x : -4 <= - (g * x) <= 4 -> - (x + 1) <= - (g * x) <= 1 - x -> forall Q, assemble even_lib one pull_pd (at_ x) = Ok Q -> minimises pull_solver Q.
Proof.
  intros H1 H2 Q HQ n Hn _. destruct (pull_data x) as [D A]. destruct (program_shaped even_lib one pull_prog 0 pull_pd pull_tidy pull_compiled (even_sound one) (at_ x) D A) as (E & F & B1 & B2).
  pose proof (pull_c x Q HQ) as Ec. unfold pull_solver. cbn [sol_primal]. rewrite Ec in *. cbn in Hn. subst n. apply (optimal_best even_lib one pull_pd (at_ x) Q E HQ F B1 B2). now apply pull_best.
Qed.
End Pull.
Lemma list1 (q : vec) : List.length q = 1%nat -> exists x, q = [x].
Proof. destruct q as [|x [|]]; try discriminate. now exists x. Qed.
Lemma pull_inside g x : Forall (unviolated even_lib (at_ x)) (comps_of (pull_pd g)) <-> -1 <= x <= 1.
Proof.
  destruct (pull_bar_at x) as [B1 _]. rewrite pull_comps. split.
  - intros H. inversion H as [|? ? _ H']; subst. inversion H' as [|? ? K _]; subst. specialize (K eq_refl _ B1). inversion K as [|? ? K1 K2]; subst. inversion K2; subst. lra.
  - intros H. constructor; [discriminate|]. constructor; [|constructor]. intros _ e He. rewrite B1 in He. injection He as <-. constructor; [lra|]. constructor; [lra|constructor].
Qed.
Lemma pull_solver_ok : forall q Q, List.length q = m_nq one -> Forall (unviolated even_lib (update even_lib one q)) (comps_of (pull_pd (1 / 2))) -> assemble even_lib one (pull_pd (1 / 2)) (update even_lib one q) = Ok Q -> minimises pull_solver Q.
Proof. intros q Q Hq Hu HQ. destruct (list1 q Hq) as (x & ->). apply pull_inside in Hu. apply (pull_solves (1 / 2) x); auto; lra. Qed.
(** The hypotheses of the loop theorem, gain 1/2, step 1. *)
Lemma pull_case : let pd := pull_pd (1 / 2) in tidy one (pull_prog (1 / 2)) /\ compiled_by (pull_prog (1 / 2)) 0 pd /\ sound_lib even_lib one /\ (forall x, List.length x = m_nq one -> wf_data one (update even_lib one x)) /\
  keeps_scalars even_lib one /\ Forall (posture one 1) (comps_of pd) /\ Forall nonneg_weights (comps_of pd) /\ vle (jd_vmin pd) (vzero (m_nv one)) /\ vle (vzero (m_nv one)) (jd_vmax pd) /\
  (forall q Q, List.length q = m_nq one -> Forall (unviolated even_lib (update even_lib one q)) (comps_of pd) -> assemble even_lib one pd (update even_lib one q) = Ok Q -> minimises pull_solver Q) /\
  Forall (unviolated even_lib (update even_lib one [1 / 3])) (comps_of pd) /\ exists x, energy even_lib (update even_lib one [1 / 3]) (comps_of pd) x /\ 0 < x.
Proof.
  cbv zeta. split; [apply pull_tidy|]. split; [apply pull_compiled|]. split; [apply even_sound|]. split; [intros x Hx; now apply even_wf|]. split; [apply even_keeps|]. split; [apply pull_posture; lra|].
  split; [rewrite pull_comps; repeat constructor; unfold nonneg_weights; cbn; lra|]. split; [cbn; apply vle1; lra|]. split; [cbn; apply vle1; lra|]. split; [exact pull_solver_ok|]. split; [apply pull_inside; lra|].
  eexists. split; [rewrite pull_comps; eexists; split; [constructor; [eapply en_seeks; [reflexivity|apply (pull_task_at (1 / 2) (1 / 3))|apply pull_is]|constructor; [apply en_other; reflexivity|constructor]]|reflexivity]|].
  unfold sq, mv, dot, vmul, vmap2. cbn. lra.
Qed.
(** Gain 3, step 1: the error grows. *)
Lemma overshoot_case : exists L m os pi pd dt q v q' x y, tidy m os /\ compiled_by os pi pd /\ sound_lib L m /\ Forall nonneg_weights (comps_of pd) /\ Forall (unviolated L (update L m q)) (comps_of pd) /\ admissible L (update L m q) pd (vzero (m_nv m)) /\
  best L (update L m q) pd v /\ integrate m q v dt = Ok q' /\ 0 < dt /\ Forall (fun j => seeks j = true -> exists fm t, joint_task fm j /\ has_target j t /\ uniform 3 j) (comps_of pd) /\ 3 * dt = 3 /\
  energy L (update L m q) (comps_of pd) x /\ energy L (update L m q') (comps_of pd) y /\ x < y.
Proof.
  exists even_lib, one, (pull_prog 3), 0%nat, (pull_pd 3), 1, [1 / 4], [- (3 * (1 / 4))], [1 / 4 + 1 * - (3 * (1 / 4))]. destruct (pull_is 3) as (A & B & C).
  assert (E : forall x, energy even_lib (at_ x) (comps_of (pull_pd 3)) (3 / 2 * sq (mv (weight_of (pull_j 3)) [x - 0]) + 0)).
  { intros x. rewrite pull_comps. exists [3 / 2 * sq (mv (weight_of (pull_j 3)) [x - 0]); 0]. split; [constructor; [eapply en_seeks; [reflexivity|apply (pull_task_at 3 x)|exact C]|constructor; [apply en_other; reflexivity|constructor]]|cbn [vsum fold_right]; ring]. }
  eexists. eexists. split; [apply pull_tidy|]. split; [apply pull_compiled|]. split; [apply even_sound|]. split; [rewrite pull_comps; repeat constructor; unfold nonneg_weights; cbn; lra|]. split; [apply (pull_inside 3 (1 / 4)); lra|].
  split; [apply (pull_admissible 3 (1 / 4)); exists 0; split; [reflexivity|lra]|]. split; [apply (pull_best 3 (1 / 4)); lra|]. split; [reflexivity|]. split; [lra|]. split; [rewrite pull_comps; constructor; [intros _; exists None, [0]; auto|constructor; [discriminate|constructor]]|].
  split; [lra|]. split; [exact (E (1 / 4))|]. split; [exact (E _)|]. unfold sq, mv, dot, vmul, vmap2. cbn. lra.
Qed.

(** Continuous time, gain 1/2: the joint moves along exp (- t / 2). *)
Definition glide (t : R) : vec := [exp (- (1 / 2) * t)].
Definition glide_v (t : R) : vec := [- (1 / 2 * exp (- (1 / 2) * t))].
Lemma glide_follows b : follows one 0 b glide_v glide.
Proof.
  split; [reflexivity|]. intros t Ht. split; [reflexivity|]. intros x (ty & Hx & _). destruct x as [|[|x]]; try discriminate Hx. cbn. replace (- (1 / 2 * exp (- (1 / 2) * t))) with (exp (- (1 / 2) * t) * - (1 / 2)) by ring.
  apply (derivable_pt_lim_comp (fun x => - (1 / 2) * x) exp); [apply lim_lin|apply derivable_pt_lim_exp].
Qed.
Lemma glide_small t : 0 < t -> 0 < exp (- (1 / 2) * t) < 1.
Proof. intros H. split; [apply exp_pos|]. pose proof (exp_increasing (- (1 / 2) * t) 0 ltac:(lra)) as K. rewrite exp_0 in K. exact K. Qed.
Lemma glide_case : let pd := pull_pd (1 / 2) in let ds := fun t => update even_lib one (glide t) in
  (forall t, 0 < t -> wf_data one (ds t) /\ Forall (accepted even_lib (ds t)) (comps_of pd) /\ best even_lib (ds t) pd (glide_v t) /\ admissible even_lib (ds t) pd (vzero (m_nv one))) /\
  forall b, Forall (flows even_lib 0 b glide_v ds) (comps_of pd).
Proof.
  cbv zeta. split.
  - intros t Ht. pose proof (glide_small t Ht) as G. destruct (pull_data (1 / 2) (exp (- (1 / 2) * t))) as [D A]. split; [exact D|]. split; [exact A|]. split; [apply (pull_best (1 / 2)); lra|]. apply (pull_admissible (1 / 2)). exists 0. split; [reflexivity|]. lra.
  - intros b. rewrite pull_comps. destruct (pull_is (1 / 2)) as (A & B & _). constructor; [apply (joint_task_flows even_lib 0 b glide_v glide None _ [0] A B); [apply even_keeps|apply glide_follows]|]. constructor; [|constructor].
    destruct lim1_case as (_ & _ & _ & D & E & _). apply (joint_barrier_flows even_lib 0 b glide_v glide None _ [-1] [1] D E); try reflexivity; [apply even_keeps|apply glide_follows].
Qed.

(** A hard loop closure whose error fades along exp (- t / 2). *)
Definition fade_d (t : R) : mjdata := let d := update even_lib onee [0] in
  {| d_qpos := d_qpos d; d_xpos := d_xpos d; d_xmat := d_xmat d; d_xquat := d_xquat d; d_xipos := d_xipos d;
     d_geom_xpos := d_geom_xpos d; d_geom_xmat := d_geom_xmat d; d_site_xpos := d_site_xpos d; d_site_xmat := d_site_xmat d;
     d_subtree_com := d_subtree_com d; d_cdof := d_cdof d; d_efc_pos := glide t; d_efc_is_equality := [true]; d_efc_J := [[1]] |}.
Lemma onee_sound : sound_model onee.
Proof.
  destruct (chain_sound [JHinge]) as (A & B & C & D & E & _ & F). split; [exact A|]. split; [exact B|]. split; [exact C|]. split; [exact D|]. split; [exact E|]. split; [reflexivity|exact F].
Qed.
Lemma dec_tidy : tidy onee dec_prog.
Proof.
  split; [exact onee_sound|]. split; [repeat constructor; exact half_made|]. split; [repeat (constructor; [first [exact I|reflexivity]|]); constructor|].
  split; [repeat constructor|]. split; [repeat (constructor; [first [exact I|reflexivity|split; [reflexivity|first [exact I|reflexivity]]]|]); constructor|].
  intros k o Hk Hb. do 3 (destruct k as [|k]; [injection Hk as <-; first [contradiction | left; eexists; vm_compute; reflexivity]|]). destruct k; discriminate.
Qed.
Lemma fade_case : tidy onee dec_prog /\ compiled_by dec_prog 0 dec_pd /\ sound_lib even_lib onee /\ exists j, comps_of dec_pd = [j] /\ is_hard j = true /\ (forall x, j_gain_fn j x = x) /\
  (forall t, 0 < t -> wf_data onee (fade_d t) /\ Forall (accepted even_lib (fade_d t)) (comps_of dec_pd) /\ admissible even_lib (fade_d t) dec_pd (glide_v t)) /\
  forall b, flows even_lib 0 b glide_v fade_d j.
Proof.
  split; [exact dec_tidy|]. split; [vm_compute; reflexivity|]. split; [apply even_sound|]. eexists. split; [reflexivity|]. split; [reflexivity|]. split; [reflexivity|].
  assert (V : forall t, call even_lib (nth 0 (comps_of dec_pd) dummy_j) (fade_d t) = Ok (glide t) /\ jacobian even_lib (nth 0 (comps_of dec_pd) dummy_j) (fade_d t) = Ok [[1]]) by (intros t; split; reflexivity).
  cbn [comps_of nth dec_pd jd_comps map snd] in V. split.
  - intros t Ht. pose proof (glide_small t Ht) as G. destruct (V t) as [V1 V2].
    split; [destruct (even_wf onee [0] eq_refl) as (A1 & A2 & A3 & A4 & A5 & A6 & A7 & A8 & A9 & A10 & A11 & _); unfold wf_data, fade_d; cbn [d_qpos d_xpos d_xmat d_xquat d_xipos d_geom_xpos d_geom_xmat d_site_xpos d_site_xmat d_subtree_com d_cdof d_efc_pos d_efc_is_equality d_efc_J];
      repeat (split; [assumption|]); cbn; repeat split; repeat constructor|].
    split; [constructor; [cbn; try exact I; try reflexivity|constructor]|].
    split; [reflexivity|]. split; [cbn; apply vle1; lra|]. split; [cbn; apply vle1; lra|]. constructor; [|constructor]. split; intros K; [discriminate K|]. intros J e EJ Ee.
    pose proof (eq_trans (eq_sym V2) EJ) as X2. injection X2 as <-. pose proof (eq_trans (eq_sym V1) Ee) as X1. injection X1 as <-. unfold gained, glide, glide_v, mv, dot, vneg, vmul, vmap2. cbn. f_equal. lra.
  - intros b. exists 1%nat, glide, (fun _ => [[1]]). intros t Ht. destruct (V t) as [V1 V2]. split; [exact V1|]. split; [exact V2|]. split; [reflexivity|]. intros i Hi. destruct i; [|lia]. cbn -[derivable_pt_lim].
    pose proof (proj2 (proj2 (glide_follows b) t Ht) 0%nat) as F. assert (S : scalar_joint one 0) by (exists JHinge; split; [reflexivity|reflexivity]). specialize (F S). cbn -[derivable_pt_lim] in F. unfold dot, vmul, vmap2. cbn -[derivable_pt_lim].
    replace (1 * - (1 / 2 * exp (- (1 / 2) * t)) + 0) with (- (1 / 2 * exp (- (1 / 2) * t))) by ring. exact F.
Qed.
