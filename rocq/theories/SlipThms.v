(** C129: hard constraints whose Jacobian is computed by differentiation. *)
From Coq Require Import Lia.
From Verif Require Import Base Lin LinFacts Mjx Typing Component Problem SpecComponent SpecJoint SpecHistory SpecMotion SpecConf Rot Conf FrameJac JaxComponents LocalIK Witness SpecTree SpecShape SpecValue SpecDeriv SpecQP SpecSolve SpecDescent SpecFit SpecProblem SpecDrift.
From Verif Require Import DerivFacts DerivThms DerivThms2 QPFacts DriftSolve.
Open Scope R_scope.

Lemma gained_zero_entry j (e : vec) i : j_gain_fn j 0 = 0 -> nth i e 0 = 0 -> nth i (vneg (gained j e)) 0 = 0.
Proof.
  intros G0 Z. unfold gained. enough (forall g, nth i (vneg (vmul g (map (j_gain_fn j) e))) 0 = 0) by auto. revert i Z. induction e as [|x e IH]; intros i Z [|y g]; try (destruct i; reflexivity).
  destruct i as [|i]; [cbn in Z |- *; subst x; rewrite G0; ring|exact (IH i Z g)].
Qed.
Section Held.
Context (L : lib) (pd : jdata) (j : jaxc) (k : nat) (q v : vec).
Notation m := (j_model j).
Context (HD : sound_jac (l_jacrev L)) (Ha : automatic j) (Hk : kinematic L j) (Hw : wf_joints m) (Hs : smooth L j k q) (Hq : List.length q = m_nq m)
  (Hj : In j (comps_of pd)) (Em : jd_model pd = m) (Bj : is_hard j = true) (G0 : j_gain_fn j 0 = 0) (Hv : admissible L (update L m q) pd v).
Lemma held J i : jacobian L j (update L m q) = Ok J -> nth i (value_at L j q) 0 = 0 -> nth i (mv J v) 0 = 0.
Proof using All.
  intros EJ Z. destruct Hv as (_ & _ & _ & F). rewrite Forall_forall in F. destruct (F j Hj) as [_ C]. destruct Hs as [V _]. destruct (V q Hq) as (e & Ee & Le).
  unfold value_at in Z. rewrite Ee in Z. rewrite (C Bj J e EJ Ee). now apply gained_zero_entry.
Qed.
Theorem held_scalar i : (i < k)%nat -> m_nq m = m_nv m -> keeps_scalars L m -> nth i (value_at L j q) 0 = 0 -> derivative_at_0 (fun t => nth i (value_after L j q v t) 0) 0.
Proof using All.
  intros Hi En Ks Z. assert (Lv : List.length v = m_nv m) by (rewrite <- Em; exact (proj1 Hv)).
  destruct (automatic_scalar L j k q v HD Ha Hk Hw Hs Hq En Ks Lv) as (J & EJ & MJ & R). pose proof (R i Hi) as K. rewrite (held J i EJ Z) in K. exact K.
Qed.
Theorem held_turning i : (i < k)%nat -> normalised m q -> d_qpos (update L m q) = q -> only_turns m v -> nth i (value_at L j q) 0 = 0 -> derivative_at_0 (fun t => nth i (value_after L j q v t) 0) 0.
Proof using All.
  intros Hi Hnq Hd Ho Z. assert (Lv : List.length v = m_nv m) by (rewrite <- Em; exact (proj1 Hv)).
  destruct (turning_twice L j k q v HD Ha Hk Hw Hs Hq Hnq Hd Lv Ho) as (J & EJ & MJ & R). destruct (R i Hi) as (l & Dl & El). pose proof (held J i EJ Z). assert (l = 0) by lra. subst l. exact Dl.
Qed.
End Held.
Theorem held_solver L os pi pd So q v0 s v j k i : let m := j_model j in tidy m os -> compiled_by os pi pd -> sound_lib L m -> List.length q = m_nq m -> wf_data m (update L m q) -> Forall (accepted L (update L m q)) (comps_of pd) ->
  exact_at L So m pd (update L m q) -> (exists w, admissible L (update L m q) pd w) -> solve L So m (tvec q) v0 pd = Ok (s, v) ->
  sound_jac (l_jacrev L) -> automatic j -> kinematic L j -> wf_joints m -> smooth L j k q -> In j (comps_of pd) -> jd_model pd = m -> is_hard j = true -> j_gain_fn j 0 = 0 ->
  (i < k)%nat -> m_nq m = m_nv m -> keeps_scalars L m -> nth i (value_at L j q) 0 = 0 -> derivative_at_0 (fun t => nth i (value_after L j q v t) 0) 0.
Proof.
  intros m Ht Hc HL Hq Hd Hacc HS He E HD Ha Hk Hw Hs Hj Em Bj G0 Hi En Ks Z. eapply held_scalar; eauto.
  exact (proj1 (returned_best L m os pi pd So q v0 Ht Hc HL Hq Hd Hacc HS s v He E)).
Qed.
