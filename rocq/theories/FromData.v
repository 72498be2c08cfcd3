(** Solving from given kinematics: behind C115. *)
From Verif Require Import Base Lin Mjx Typing Component Problem Conf JaxComponents LocalIK GlobalIK SpecGlobal GlobalFacts GlobalFacts2.
Open Scope R_scope.

Lemma from_data_ok L grad O sm dt st pd d q' v st' : dt <> 0 -> List.length (d_qpos d) = m_nq sm -> grad_keeps_length grad -> step_keeps_length O ->
  gsolve_from_data L grad O sm dt st pd d = Ok (q', v, st') ->
  List.length v = m_nq sm /\ q' = vadd (d_qpos d) (vscale dt v) /\ gsolve L grad O sm dt (tvec (d_qpos d)) st pd = Ok (q', v, st').
Proof.
  intros Hdt Hx Hg Ho H. pose proof H as H'. unfold gsolve_from_data in H'.
  destruct (solution_lengths L grad O sm dt _ st pd q' v st' Hx Hg Ho H') as (A & dq & Hl & -> & ->). split; [exact A|]. split; [|exact H'].
  f_equal. unfold vscale. rewrite map_map. rewrite <- (map_id dq) at 1. apply map_ext. intros y. field. exact Hdt.
Qed.
Lemma from_data_same L grad O sm dt st pd d d' : d_qpos d' = d_qpos d -> gsolve_from_data L grad O sm dt st pd d' = gsolve_from_data L grad O sm dt st pd d.
Proof. unfold gsolve_from_data. intros ->. reflexivity. Qed.
Lemma from_data_len L grad O sm dt st pd d : List.length (d_qpos d) <> m_nq sm -> gsolve_from_data L grad O sm dt st pd d = Err ValueError.
Proof. intros H. unfold gsolve_from_data, gsolve. cbn. apply Nat.eqb_neq in H. now rewrite H. Qed.
Lemma local_from_data L S sm q v v' pd : List.length q = m_nq sm -> solve L S sm (tvec q) v pd = solve_from_data L S sm v' pd (update L sm q).
Proof. intros H. unfold solve, solve_from_data. cbn. now rewrite H, Nat.eqb_refl. Qed.
