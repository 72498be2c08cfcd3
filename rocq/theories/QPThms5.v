(** Final forms of the local IK theorems. *)
From Verif Require Import Base Lin LinFacts Mjx Typing Component Problem SpecComponent SpecProblem Witness JaxComponents LocalIK GlobalIK SpecQP QPFacts QPThms QPThms2 QPThms3 QPThms4.
From Coq Require Import Permutation.
Open Scope R_scope.

Lemma init_task_reject name cost gain gf lm mk k : lm < 0 -> init_task name cost gain gf lm mk k = Err ValueError.
Proof.
  intros H. unfold init_task, init_component. destruct (Nat.ltb 1 (ndim gain)); [reflexivity|].
  destruct mk as [mk|]; [destruct (negb _); [reflexivity|]|]; cbn; destruct (Rlt_dec lm 0); [reflexivity|contradiction|reflexivity|contradiction].
Qed.
Lemma reject_damping name cost gain gf lm mk jmk on ty d f : lm < 0 ->
  (exists e, new_com_task name cost gain gf lm mk = Err e) /\
  new_position_task name cost gain on ty gf lm mk = Err ValueError /\
  new_frame_task name cost gain on ty gf lm mk = Err ValueError /\
  new_joint_task name cost gain gf lm jmk = Err ValueError /\
  new_custom_task name cost gain gf lm mk d f = Err ValueError.
Proof.
  intros H. unfold new_com_task, new_position_task, new_frame_task, new_joint_task, new_custom_task. rewrite !init_task_reject by exact H.
  repeat split; try reflexivity. destruct mk as [mk|]; [|cbn; eexists; reflexivity].
  destruct (mk_shape mk) as [|n r]; [cbn; eexists; reflexivity|]. destruct (Nat.eqb n 3); cbn; eexists; reflexivity.
Qed.

Lemma perm_optimal L sm pd pd' d Q :
  m_nv sm = m_nv (jd_model pd) -> jd_model pd' = jd_model pd -> jd_vmin pd' = jd_vmin pd -> jd_vmax pd' = jd_vmax pd ->
  List.length (jd_vmin pd) = m_nv (jd_model pd) -> List.length (jd_vmax pd) = m_nv (jd_model pd) ->
  Permutation (comps_of pd) (comps_of pd') -> Forall (well_shaped L (m_nv (jd_model pd)) d) (comps_of pd) ->
  assemble L sm pd d = Ok Q -> exists Q', assemble L sm pd' d = Ok Q' /\ qp_P Q' = qp_P Q /\ qp_c Q' = qp_c Q /\
    Permutation (row_pairs (qp_G Q) (qp_h Q)) (row_pairs (qp_G Q') (qp_h Q')) /\ Permutation (eq_rows (qp_eq Q)) (eq_rows (qp_eq Q')) /\
    forall v, optimal (m_nv (jd_model pd)) Q v <-> optimal (m_nv (jd_model pd)) Q' v.
Proof.
  intros Hnv Em E1 E2 L1 L2 HP Hs HQ. destruct (assemble_perm L sm pd pd' d Q Hnv Em E1 E2 L1 L2 HP Hs HQ) as (Q' & HQ' & P1 & P2 & P3 & P4).
  exists Q'. split; [exact HQ'|]. do 4 (split; [assumption|]).
  assert (Hs' : Forall (well_shaped L (m_nv (jd_model pd')) d) (comps_of pd')) by (rewrite Em; eapply Permutation_Forall; eauto).
  assert (Hnv' : m_nv sm = m_nv (jd_model pd')) by now rewrite Em.
  assert (FE : forall f (P : jaxc -> Prop), Forall P (filter f (comps_of pd)) <-> Forall P (filter f (comps_of pd'))).
  { intros f P. pose proof (filter_perm f _ _ HP) as X. split; intros Y; [exact (Permutation_Forall X Y)|exact (Permutation_Forall (Permutation_sym X) Y)]. }
  assert (F : forall v, List.length v = m_nv (jd_model pd) -> feasible Q v <-> feasible Q' v).
  { intros v Hv. unfold feasible. rewrite (ineq_iff L sm pd d Q Hnv HQ Hs v Hv L1 L2), (eq_iff L sm pd d Q Hnv HQ Hs v).
    rewrite (ineq_iff L sm pd' d Q' Hnv' HQ' Hs' v), (eq_iff L sm pd' d Q' Hnv' HQ' Hs' v) by (now rewrite ?Em, ?E1, ?E2).
    rewrite E1, E2, !FE. reflexivity. }
  assert (O : forall v, objective Q' v = objective Q v) by (intros v; unfold objective; now rewrite P1, P2).
  intros v. split; intros (H1 & H2 & H3); (split; [exact H1|]; split; [apply F; assumption|]; intros w Hw Hf).
  - rewrite !O. apply H3; [exact Hw|now apply F].
  - rewrite <- !O. apply H3; [exact Hw|now apply F].
Qed.

Lemma limits_sym L sm pd d Q : m_nv sm = m_nv (jd_model pd) -> assemble L sm pd d = Ok Q ->
  Forall (well_shaped L (m_nv (jd_model pd)) d) (comps_of pd) ->
  List.length (jd_vmin pd) = m_nv (jd_model pd) -> jd_vmax pd = vneg (jd_vmin pd) ->
  forall v, List.length v = m_nv (jd_model pd) ->
    (satisfies_ineq (qp_G Q) (qp_h Q) v -> vle (jd_vmin pd) v /\ vle v (jd_vmax pd)) /\
    (filter is_barrier (comps_of pd) = [] -> vle (jd_vmin pd) v -> vle v (jd_vmax pd) -> satisfies_ineq (qp_G Q) (qp_h Q) v).
Proof.
  intros Hnv HQ Hs L1 E v Hv. assert (L2 : List.length (jd_vmax pd) = m_nv (jd_model pd)) by (rewrite E, vneg_length; exact L1).
  rewrite (ineq_iff L sm pd d Q Hnv HQ Hs v Hv L1 L2). rewrite E. split.
  - intros (A & B & _). split; [apply vle_neg; exact B|exact A].
  - intros -> A B. split; [exact B|]. split; [apply vle_neg; exact A|constructor].
Qed.

Lemma solve_fits L So sm q v_prev pd : m_nv sm = m_nv (jd_model pd) -> t_shape q = [m_nq sm] ->
  let d := update L sm (t_data q) in
  Forall (fits L (m_nv (jd_model pd)) d) (comps_of pd) ->
  (forall j J, In j (comps_of pd) -> is_barrier j = true -> jacobian L j d = Ok J -> frob2 J <> 0) ->
  exists Q, assemble L sm pd d = Ok Q /\ solve L So sm q v_prev pd = Ok (So Q, sol_primal (So Q)).
Proof.
  cbv zeta. intros Hnv Hq Hf Hb. destruct (proj2 (assemble_finite L sm pd _ Hnv Hf) Hb) as [Q HQ]. exists Q. split; [exact HQ|].
  destruct (solve_shape L So sm q v_prev pd) as [_ H]. rewrite H by exact Hq. now rewrite HQ.
Qed.
Lemma ginit_shape O sm q : (t_shape q = [m_nq sm] -> ginit O sm q = Ok (o_init O (t_data q))) /\ (t_shape q <> [m_nq sm] -> ginit O sm q = Err ValueError).
Proof.
  unfold ginit. split; [intros ->; now rewrite Nat.eqb_refl|]. intros H. destruct (t_shape q) as [|k [|? ?]]; try reflexivity.
  destruct (Nat.eqb k (m_nq sm)) eqn:K; [|reflexivity]. apply Nat.eqb_eq in K. congruence.
Qed.
Lemma gsolve_shape L g O sm dt q st pd : t_shape q <> [m_nq sm] -> gsolve L g O sm dt q st pd = Err ValueError.
Proof.
  unfold gsolve. intros H. destruct (t_shape q) as [|k [|? ?]]; try reflexivity.
  destruct (Nat.eqb k (m_nq sm)) eqn:K; [|reflexivity]. apply Nat.eqb_eq in K. congruence.
Qed.
Lemma hessian_convex L sm pd d Q : m_nv sm = m_nv (jd_model pd) -> assemble L sm pd d = Ok Q ->
  let n := m_nv (jd_model pd) in
  is_mat n n (qp_P Q) /\
  (forall i k, (i < n)%nat -> (k < n)%nat -> nth k (nth i (qp_P Q) []) 0 = nth i (nth k (qp_P Q) []) 0) /\
  (Forall nonneg_weights (comps_of pd) -> forall v, List.length v = n -> 0 <= dot v (mv (qp_P Q) v)).
Proof.
  cbv zeta. intros Hnv HQ. destruct (hessian_shape L sm pd d Q Hnv HQ) as [S _]. split; [exact S|]. split.
  - apply sym_entries; [exact S|]. intros u v Hu Hv. apply (hessian_sym L sm pd d Q Hnv HQ); assumption.
  - intros Hn v Hv. apply (hessian_psd L sm pd d Q Hnv HQ); assumption.
Qed.
Lemma global_shape L g O sm dt q st pd :
  (t_shape q = [m_nq sm] -> ginit O sm q = Ok (o_init O (t_data q))) /\
  (t_shape q <> [m_nq sm] -> ginit O sm q = Err ValueError /\ gsolve L g O sm dt q st pd = Err ValueError).
Proof. split; [apply ginit_shape|]. intros H. split; [now apply ginit_shape|now apply gsolve_shape]. Qed.
