(** C128: barriers whose Jacobian is computed by differentiation. *)
From Coq Require Import Lia.
From Verif Require Import Base Lin LinFacts Mjx Typing Component Problem SpecComponent SpecJoint SpecHistory SpecMotion SpecConf Rot Conf FrameJac JaxComponents LocalIK Witness SpecTree SpecShape SpecValue SpecDeriv SpecQP SpecSolve SpecDescent SpecFit SpecProblem SpecDrift.
From Verif Require Import DerivFacts DerivThms DerivThms2 QPFacts DriftSolve.
Open Scope R_scope.

Lemma vle_nth (a b : vec) i : vle a b -> nth i a 0 <= nth i b 0.
Proof. intros H. revert i. induction H as [|x y a b Hxy H IH]; intros [|i]; cbn; try lra. apply IH. Qed.
Section Kept.
Context (L : lib) (pd : jdata) (j : jaxc) (k : nat) (q v : vec).
Notation m := (j_model j).
Context (HD : sound_jac (l_jacrev L)) (Ha : automatic j) (Hk : kinematic L j) (Hw : wf_joints m) (Hs : smooth L j k q) (Hq : List.length q = m_nq m)
  (Hj : In j (comps_of pd)) (Em : jd_model pd = m) (Bj : is_barrier j = true) (G0 : j_gain_fn j 0 = 0) (Hv : admissible L (update L m q) pd v).
Lemma kept J i : jacobian L j (update L m q) = Ok J -> nth i (value_at L j q) 0 = 0 -> 0 <= nth i (mv J v) 0.
Proof using All.
  intros EJ Z. destruct Hv as (_ & _ & _ & F). rewrite Forall_forall in F. destruct (F j Hj) as [C _]. destruct Hs as [V _]. destruct (V q Hq) as (e & Ee & Le).
  unfold value_at in Z. rewrite Ee in Z. pose proof (vle_nth _ _ i (C Bj J e EJ Ee)) as N. assert (Hg : nth i (vneg (gained j e)) 0 = 0); [|lra].
  clear - Z G0. unfold gained. assert (forall g, nth i (vneg (vmul g (map (j_gain_fn j) e))) 0 = 0); [|auto]. revert i Z. induction e as [|x e IH]; intros i Z [|y g]; try (destruct i; reflexivity).
  destruct i as [|i]; [cbn in Z |- *; subst x; rewrite G0; ring|exact (IH i Z g)].
Qed.
Theorem kept_scalar i : (i < k)%nat -> m_nq m = m_nv m -> keeps_scalars L m -> nth i (value_at L j q) 0 = 0 -> exists l, derivative_at_0 (fun t => nth i (value_after L j q v t) 0) l /\ 0 <= l.
Proof using All.
  intros Hi En Ks Z. assert (Lv : List.length v = m_nv m) by (rewrite <- Em; exact (proj1 Hv)).
  destruct (automatic_scalar L j k q v HD Ha Hk Hw Hs Hq En Ks Lv) as (J & EJ & MJ & R). exists (nth i (mv J v) 0). split; [now apply R|now apply kept].
Qed.
Theorem kept_turning i : (i < k)%nat -> normalised m q -> d_qpos (update L m q) = q -> only_turns m v -> nth i (value_at L j q) 0 = 0 -> exists l, derivative_at_0 (fun t => nth i (value_after L j q v t) 0) l /\ 0 <= l.
Proof using All.
  intros Hi Hnq Hd Ho Z. assert (Lv : List.length v = m_nv m) by (rewrite <- Em; exact (proj1 Hv)).
  destruct (turning_twice L j k q v HD Ha Hk Hw Hs Hq Hnq Hd Lv Ho) as (J & EJ & MJ & R). destruct (R i Hi) as (l & Dl & El). exists l. split; [exact Dl|]. pose proof (kept J i EJ Z). lra.
Qed.
End Kept.
(** The same for what the solver returns. *)
Theorem kept_solver L os pi pd So q v0 s v j k i : let m := j_model j in tidy m os -> compiled_by os pi pd -> sound_lib L m -> List.length q = m_nq m -> wf_data m (update L m q) -> Forall (accepted L (update L m q)) (comps_of pd) ->
  exact_at L So m pd (update L m q) -> (exists w, admissible L (update L m q) pd w) -> solve L So m (tvec q) v0 pd = Ok (s, v) ->
  sound_jac (l_jacrev L) -> automatic j -> kinematic L j -> wf_joints m -> smooth L j k q -> In j (comps_of pd) -> jd_model pd = m -> is_barrier j = true -> j_gain_fn j 0 = 0 ->
  (i < k)%nat -> m_nq m = m_nv m -> keeps_scalars L m -> nth i (value_at L j q) 0 = 0 -> exists l, derivative_at_0 (fun t => nth i (value_after L j q v t) 0) l /\ 0 <= l.
Proof.
  intros m Ht Hc HL Hq Hd Hacc HS He E HD Ha Hk Hw Hs Hj Em Bj G0 Hi En Ks Z. eapply kept_scalar; eauto.
  exact (proj1 (returned_best L m os pi pd So q v0 Ht Hc HL Hq Hd Hacc HS s v He E)).
Qed.
