(** The global IK solver on programs; consistency of its solution. *)
From Verif Require Import Base Lin LinFacts Mjx Typing Component Problem SpecComponent SpecJoint SpecProblem SpecShape JaxComponents Conf IntegrateFacts LocalIK GlobalIK SpecQP SpecFit FitFacts3 SpecGlobal GlobalFacts.
From Coquelicot Require Import Derive.
Open Scope R_scope.

Lemma program_contributions L m os pi pd d : tidy m os -> compiled_by os pi pd -> sound_lib L m -> wf_data m d -> Forall (accepted L d) (comps_of pd) ->
  Forall (fun j => is_constraint j = false) (comps_of pd) -> exists xs, contributions L d pd xs.
Proof.
  intros Ht Hc HL Hd Ha Hn. destruct (program_fits L m os pi pd d Ht Hc HL Hd Ha) as [F _]. unfold contributions. induction F as [|j js Hj F IH]; [exists []; constructor|].
  inversion Ha; inversion Hn; subst. destruct IH as [xs H]; auto. destruct Hj as (n & e & J & _ & He & Hl & _ & _ & Hg & _).
  exists (wsum (j_gain j) (map (if is_barrier j then penalty else square) e) :: xs). constructor; [|exact H]. exists e. repeat split; auto. congruence.
Qed.
Lemma program_loss L m os pi pd q : tidy m os -> compiled_by os pi pd -> sound_lib L m -> let d := update L m q in wf_data m d -> Forall (accepted L d) (comps_of pd) ->
  Forall (fun j => is_constraint j = false) (comps_of pd) -> exists xs, contributions L d pd xs /\ loss_fn L q pd = Ok (total_of xs).
Proof.
  intros Ht Hc HL d Hd Ha Hn. destruct (program_contributions L m os pi pd d Ht Hc HL Hd Ha Hn) as [xs H]. exists xs. split; [exact H|].
  destruct (program_components m os pi pd Ht Hc) as (E & _). apply loss_value. now rewrite E.
Qed.

(** ** Solutions *)
Lemma gsolve_shape L grad O sm dt q st pd : t_shape q <> [m_nq sm] -> gsolve L grad O sm dt q st pd = Err ValueError.
Proof.
  intros H. unfold gsolve. destruct (t_shape q) as [|k [|? ?]]; try reflexivity. destruct (Nat.eqb_spec k (m_nq sm)) as [->|]; [contradiction|reflexivity].
Qed.
Lemma gsolve_ok L grad O sm dt q st pd g : t_shape q = [m_nq sm] -> grad (fun x => loss_fn L x pd) (t_data q) = Ok g ->
  gsolve L grad O sm dt q st pd = Ok (vadd (t_data q) (fst (o_update O g st)), map (fun x => x / dt) (fst (o_update O g st)), snd (o_update O g st)).
Proof. intros Hs Hg. unfold gsolve. rewrite Hs, Nat.eqb_refl, Hg. cbn [bind]. now destruct (o_update O g st). Qed.
Lemma ginit_shape O sm q : t_shape q <> [m_nq sm] -> ginit O sm q = Err ValueError.
Proof. intros H. unfold ginit. destruct (t_shape q) as [|k [|? ?]]; try reflexivity. destruct (Nat.eqb_spec k (m_nq sm)) as [->|]; [contradiction|reflexivity]. Qed.
Lemma ginit_ok O sm q : t_shape q = [m_nq sm] -> ginit O sm q = Ok (o_init O (t_data q)).
Proof. intros H. unfold ginit. now rewrite H, Nat.eqb_refl. Qed.

Lemma integrate_scalars ts q dq dt : Forall (fun t => is_scalar t = true) ts -> dt <> 0 -> List.length q = List.length ts -> List.length dq = List.length ts ->
  integrate_from ts q (map (fun x => x / dt) dq) dt = Ok (vadd q dq).
Proof.
  intros F Hdt. revert q dq. induction F as [|t ts Ht F IH]; intros q dq Hq Hd; destruct q as [|x q], dq as [|y dq]; try discriminate; [reflexivity|].
  cbn in Hq, Hd. assert (E : jnt_nq t = 1%nat /\ jnt_nv t = 1%nat /\ integrate_joint t (x :: q) (y / dt :: map (fun x => x / dt) dq) dt = Ok [x + dt * (y / dt)]) by (destruct t; try discriminate; repeat split).
  destruct E as (E1 & E2 & E3). cbn [integrate_from map]. rewrite E1, E2, E3. cbn [bind skipn]. rewrite IH by lia. cbn. f_equal. f_equal. field. exact Hdt.
Qed.
Lemma scalar_sizes ts : Forall (fun t => is_scalar t = true) ts -> fold_right (fun t n => (jnt_nq t + n)%nat) 0%nat ts = List.length ts /\ fold_right (fun t n => (jnt_nv t + n)%nat) 0%nat ts = List.length ts.
Proof. induction 1 as [|t ts Ht F [IH1 IH2]]; [split; reflexivity|]. cbn. rewrite IH1, IH2. destruct t; try discriminate; split; reflexivity. Qed.
Lemma scalar_model m : wf_joints m -> Forall (fun t => is_scalar t = true) (m_jnt_type m) -> m_nq m = List.length (m_jnt_type m) /\ m_nv m = List.length (m_jnt_type m).
Proof. intros (_ & _ & _ & -> & -> & _) F. apply scalar_sizes in F as [A B]. split; [exact A|exact B]. Qed.

Lemma solution_lengths L grad O sm dt x st pd q' v st' : List.length x = m_nq sm -> grad_keeps_length grad -> step_keeps_length O ->
  gsolve L grad O sm dt (tvec x) st pd = Ok (q', v, st') -> List.length v = m_nq sm /\ exists dq, List.length dq = m_nq sm /\ q' = vadd x dq /\ v = map (fun y => y / dt) dq.
Proof.
  intros Hx Hg Ho H. destruct (grad (fun y => loss_fn L y pd) x) as [g|e] eqn:E.
  - rewrite (gsolve_ok L grad O sm dt (tvec x) st pd g) in H; [|cbn; now rewrite Hx|exact E]. injection H as <- <- <-. apply Hg in E.
    assert (K : List.length (fst (o_update O g st)) = m_nq sm) by (rewrite Ho; congruence). split; [now rewrite map_length|]. exists (fst (o_update O g st)). auto.
  - unfold gsolve in H. cbn in H. rewrite Hx, Nat.eqb_refl, E in H. discriminate.
Qed.
Lemma solution_consistent L grad O sm dt x st pd q' v st' : wf_joints sm -> Forall (fun t => is_scalar t = true) (m_jnt_type sm) -> dt <> 0 ->
  List.length x = m_nq sm -> grad_keeps_length grad -> step_keeps_length O -> gsolve L grad O sm dt (tvec x) st pd = Ok (q', v, st') ->
  List.length v = m_nv sm /\ integrate sm x v dt = Ok q'.
Proof.
  intros Hw F Hdt Hx Hg Ho H. destruct (solution_lengths L grad O sm dt x st pd q' v st' Hx Hg Ho H) as (A & dq & Hl & -> & ->). destruct (scalar_model sm Hw F) as [E1 E2].
  split; [congruence|]. pose proof Hw as (_ & _ & _ & Hnq & Hnv & _).
  rewrite integrate_sized by (rewrite ?map_length, <- ?Hnq, <- ?Hnv; lia). apply integrate_scalars; congruence.
Qed.

(** ** A differentiation procedure, from the limits of difference quotients *)
Definition value_or (r : res R) : R := match r with Ok y => y | Err _ => 0 end.
Definition true_grad : gradient := fun f x => Ok (map (fun i => Derive (fun t => value_or (f (replace_nth i t x))) (nth i x 0)) (seq 0 (List.length x))).
Lemma replace_length {A} i (a : A) l : List.length (replace_nth i a l) = List.length l.
Proof. revert l. induction i; intros [|b l]; cbn; congruence. Qed.
Lemma true_grad_length : grad_keeps_length true_grad.
Proof. intros f x g H. injection H as <-. now rewrite map_length, seq_length. Qed.
Lemma true_grad_sound : sound_grad true_grad.
Proof.
  intros f F x g Hl Hf Hd. unfold true_grad. f_equal. apply nth_ext with (d := 0) (d' := 0); [now rewrite map_length, seq_length|].
  intros i Hi. rewrite map_length, seq_length in Hi. rewrite nth_indep with (d' := (fun i => Derive (fun t => value_or (f (replace_nth i t x))) (nth i x 0)) 0%nat) by now rewrite map_length, seq_length.
  rewrite (map_nth (fun i => Derive (fun t => value_or (f (replace_nth i t x))) (nth i x 0))), seq_nth by exact Hi. cbn [plus].
  apply is_derive_unique. apply is_derive_Reals. eapply derive_local; [exact (Hd i Hi)|]. exists 1. split; [lra|]. intros y _. rewrite Hf by apply replace_length. reflexivity.
Qed.
Lemma barrier_bound L d j x : is_barrier j = true -> nonneg_gain j -> contributes L d j x -> x <= 9 * ln 10 * total_of (j_gain j).
Proof.
  intros Hb Hg (e & _ & _ & _ & ->). rewrite Hb. apply wsum_bound; [exact Hg| |].
  - apply Forall_map, Forall_forall. intros y _. apply penalty_max.
  - assert (0 < ln 10) by (rewrite <- ln_1; apply ln_increasing; lra). lra.
Qed.
